(** C90: RTP sockets: addresses, priority and statistics. *)
From Coq Require Import List Arith Lia Bool ZArith.
From Verif Require Import Base OrtpQueryModel OrtpQuerySpec.
Import ListNotations.
Open Scope Z_scope.

Lemma run_app pl h h' : run pl (h ++ h') = fold_left step h' (run pl h).
Proof. apply fold_left_app. Qed.

Lemma set_same q i k : q_sock (set q i k) i = k.
Proof. cbn. now rewrite Nat.eqb_refl. Qed.
Lemma set_other q i j k : j <> i -> q_sock (set q j k) i = q_sock q i.
Proof. intros H. cbn. destruct (Nat.eqb_spec i j); [congruence|easy]. Qed.
Ltac sides := repeat match goal with
  | |- context [if ?b then _ else _] => let H := fresh "B" in destruct b eqn:H
  | |- context [match ?o with Some _ => _ | None => _ end] => is_var o; destruct o end.

Lemma step_poll q v i : k_poll (q_sock (step q v) i) = k_poll (q_sock q i).
Proof.
  destruct v; cbn [step]; unfold bind, connect, auto, priority, ip_port, bound_addr, get_stats; sides; try reflexivity;
  cbn; destruct (Nat.eqb_spec i i0); subst; reflexivity.
Qed.
Lemma run_poll pl h i : k_poll (q_sock (run pl h) i) = pl i.
Proof.
  induction h as [|v h IH] using rev_ind; [reflexivity|]. rewrite run_app. cbn [fold_left]. now rewrite step_poll.
Qed.

(** what one call does to the descriptors of socket [i] *)
Lemma step_not_asks q v i : ~ asks (k_poll (q_sock q i)) i v -> k_fd (q_sock (step q v) i) = k_fd (q_sock q i).
Proof.
  destruct v; cbn [step asks]; unfold bind, connect, auto, priority, ip_port, bound_addr, get_stats; intros N; sides; try reflexivity;
  cbn; destruct (Nat.eqb_spec i i0) as [->|]; try reflexivity; exfalso; apply N; cbn in *;
  repeat match goal with H : (_ <? _) = false |- _ => apply Z.ltb_ge in H | H : (_ =? _) = false |- _ => apply Z.eqb_neq in H end; auto.
Qed.
Lemma step_asks q v i : asks (k_poll (q_sock q i)) i v -> k_fd (q_sock (step q v) i) = k_sess (q_sock (step q v) i).
Proof.
  destruct v; cbn [step asks]; try easy; unfold bind, connect, auto.
  - intros [-> H]. destruct (Z.ltb_spec rc 0); [lia|]. cbn. now rewrite Nat.eqb_refl.
  - intros (-> & H & H1 & H2). destruct (Z.eqb_spec port 0); [easy|]. destruct (Z.ltb_spec rc 0); [lia|].
    cbn [sess k_poll]. rewrite H2. cbn. now rewrite Nat.eqb_refl.
  - intros [-> H]. rewrite H. cbn. now rewrite Nat.eqb_refl.
Qed.
Lemma step_closed q v i : ~ opens i v -> k_sess (q_sock (step q v) i) = k_sess (q_sock q i).
Proof.
  destruct v; cbn [step opens]; unfold bind, connect, auto, priority, ip_port, bound_addr, get_stats; intros N; sides; try reflexivity;
  cbn; destruct (Nat.eqb_spec i i0) as [->|]; try reflexivity; exfalso; apply N; cbn in *;
  repeat match goal with H : (_ =? _) = false |- _ => apply Z.eqb_neq in H end; auto.
Qed.
Lemma step_gives q v i ss : gives i ss v -> k_sess (q_sock (step q v) i) = ss.
Proof.
  destruct v; cbn [step gives]; try easy; unfold bind, connect.
  - intros [-> ->]. sides; cbn; now rewrite Nat.eqb_refl.
  - intros (-> & H & ->). destruct (Z.eqb_spec port 0); [easy|]. sides; cbn; now rewrite Nat.eqb_refl.
Qed.
Definition opens_b (i : nat) (v : ev) : bool :=
  match v with Bind j _ _ => Nat.eqb j i | Connect j port _ _ => Nat.eqb j i && negb (port =? 0) | _ => false end.
Lemma opens_spec i v : if opens_b i v then opens i v else ~ opens i v.
Proof.
  destruct v; cbn; try (now intros []).
  - now destruct (Nat.eqb_spec i0 i).
  - destruct (Nat.eqb_spec i0 i), (Z.eqb_spec port 0); cbn; tauto.
Qed.

Definition fds (pl : nat -> bool) (h : list ev) (i : nat) : Z * Z := k_fd (q_sock (run pl h) i).

(** the library knows the session's descriptors: after a call that opened them and one that asked
    for them (the same, mostly), and as long as no later call gives the session others *)
Lemma asks_dec pl i w : asks pl i w \/ ~ asks pl i w.
Proof.
  destruct w as [j rc x|j port rc x|j|j p rc rc'|j rc b a0 b0 c0 d0 po|j rc rc' t po| |j g jj]; cbn [asks]; try (right; now intros []).
  - destruct (Nat.eq_dec j i); [|right; tauto]. destruct (Z_le_dec 0 rc); [left|right]; tauto.
  - destruct (Nat.eq_dec j i); [|right; tauto]. destruct (Z_le_dec 0 rc); [|right; tauto].
    destruct (Z.eq_dec port 0); [right; tauto|]. destruct pl; [right|left]; intuition congruence.
  - destruct (Nat.eq_dec j i); [|right; tauto]. destruct pl; [right|left]; intuition congruence.
Qed.
Lemma known pl h1 v h2 i ss : settled (pl i) i ss v h2 ->
  let q := run pl (h1 ++ v :: h2) in k_fd (q_sock q i) = ss /\ k_sess (q_sock q i) = ss.
Proof.
  intros (G & F & T). cbn zeta.
  assert (W : k_sess (q_sock (run pl (h1 ++ v :: h2)) i) = ss /\ (Exists (asks (pl i) i) (v :: h2) -> k_fd (q_sock (run pl (h1 ++ v :: h2)) i) = ss)).
  2: { split; [now apply W|apply W]. }
  clear T. induction h2 as [|w h2 IH] using rev_ind.
  - rewrite run_app. cbn [fold_left]. rewrite (step_gives _ _ _ _ G). split; [reflexivity|]. intros A.
    apply Exists_cons in A. destruct A as [A|A]; [|now apply Exists_nil in A].
    rewrite step_asks; [now apply step_gives|]. now rewrite run_poll.
  - apply Forall_app in F. destruct F as [F W]. apply Forall_inv in W. specialize (IH F).
    replace (h1 ++ v :: h2 ++ [w]) with ((h1 ++ v :: h2) ++ [w]) by now rewrite <- app_assoc.
    rewrite run_app. cbn [fold_left]. pose proof (run_poll pl (h1 ++ v :: h2) i) as RP. set (q := run pl (h1 ++ v :: h2)) in *. destruct IH as [IH1 IH2].
    assert (S1 : k_sess (q_sock (step q w) i) = ss).
    { pose proof (opens_spec i w) as O. destruct (opens_b i w); [now apply step_gives, W|now rewrite step_closed]. }
    split; [exact S1|]. intros A. destruct (asks_dec (pl i) i w) as [D|D].
    + rewrite step_asks; [exact S1|now rewrite RP].
    + rewrite step_not_asks; [|now rewrite RP]. apply IH2. change (v :: h2 ++ [w]) with ((v :: h2) ++ [w]) in A. apply Exists_app in A.
      destruct A as [A|A]; [exact A|]. apply Exists_cons in A. destruct A as [A|A]; [easy|now apply Exists_nil in A].
Qed.

(** *** C90: the socket priority is set on the sockets of the session, the RTCP one only if the RTP
    one took it *)
Theorem C90_priority pl h1 v h2 i ss p rc rc' q :
  settled (pl i) i ss v h2 ->
  q = run pl (h1 ++ v :: h2) ->
  q_out (run pl ((h1 ++ v :: h2) ++ [Priority i p rc rc'])) = q_out q ++
    if rc <? 0 then [EPrio (fst ss) p; ERet rc] else [EPrio (fst ss) p; EPrio (snd ss) p; ERet rc'].
Proof.
  intros G ->. rewrite run_app. cbn [fold_left step]. unfold priority.
  rewrite (proj1 (known pl h1 v h2 i ss G)). now destruct (rc <? 0).
Qed.
(** *** C90: the address asked for is the one of the session's RTP socket; it is given most
    significant octet first, with the local port; a socket that is not IPv4 gives -EIO *)
Theorem C90_ip_port pl h1 v h2 i ss rc inet a b c d port q q' :
  settled (pl i) i ss v h2 ->
  q = run pl (h1 ++ v :: h2) -> q' = run pl ((h1 ++ v :: h2) ++ [IpPort i rc inet a b c d port]) ->
  (rc < 0 -> q_out q' = q_out q ++ [EName (fst ss); ERet rc]) /\
  (0 <= rc -> inet = false -> q_out q' = q_out q ++ [EName (fst ss); ERet (-5)]) /\
  (0 <= rc -> inet = true -> octet a -> octet b -> octet c -> octet d ->
    exists ip, is_ip ip a b c d /\ q_out q' = q_out q ++ [EName (fst ss); EIp ip port; ERet 0]).
Proof.
  intros G -> ->. rewrite run_app. cbn [fold_left step]. unfold ip_port.
  rewrite (proj1 (known pl h1 v h2 i ss G)).
  split; [|split].
  - intros H. destruct (Z.ltb_spec rc 0); [|lia]. cbn. now rewrite <- app_assoc.
  - intros H ->. destruct (Z.ltb_spec rc 0); [lia|]. cbn. now rewrite <- app_assoc.
  - intros H -> A B C D. destruct (Z.ltb_spec rc 0); [lia|].
    exists (a * 2 ^ 24 + b * 2 ^ 16 + c * 2 ^ 8 + d). split; [|cbn; now rewrite <- app_assoc].
    unfold is_ip, octet in *. change (2 ^ 24) with 16777216. change (2 ^ 16) with 65536. change (2 ^ 8) with 256.
    split; [|split; [|split]].
    + symmetry. apply Z.div_unique with (b * 65536 + c * 256 + d); lia.
    + replace ((a * 16777216 + b * 65536 + c * 256 + d) / 65536) with (a * 256 + b)
        by (apply Z.div_unique with (c * 256 + d); lia).
      symmetry. apply Z.mod_unique with a; lia.
    + replace ((a * 16777216 + b * 65536 + c * 256 + d) / 256) with (a * 65536 + b * 256 + c)
        by (apply Z.div_unique with d; lia).
      symmetry. apply Z.mod_unique with (a * 256 + b); lia.
    + symmetry. apply Z.mod_unique with (a * 65536 + b * 256 + c); lia.
Qed.
(** *** C90: so is the one osmo_rtp_get_bound_addr gives, as text *)
Theorem C90_addr pl h1 v h2 i ss rc rc' t port q :
  settled (pl i) i ss v h2 ->
  q = run pl (h1 ++ v :: h2) ->
  q_out (run pl ((h1 ++ v :: h2) ++ [Addr i rc rc' t port; Look])) = q_out q ++ EName (fst ss) ::
    if rc <? 0 then [ERet rc; ESee []] else if rc' <? 0 then [ERet rc'; ESee t] else [EAddr port; ERet 0; ESee t].
Proof.
  intros G ->. rewrite run_app. cbn [fold_left step]. unfold bound_addr.
  cbn [w_buf q_sock]. rewrite (proj1 (known pl h1 v h2 i ss G)).
  destruct (rc <? 0); [|destruct (rc' <? 0)]; cbn; repeat rewrite <- app_assoc; reflexivity.
Qed.
(** *** C90 refuted in one case: the text given stays valid only until the next question, of whatever
    socket: it is then the other one's *)
Lemma buf_keep q v : (forall i rc rc' t port, v <> Addr i rc rc' t port) -> q_buf (step q v) = q_buf q.
Proof.
  intros N. destruct v; try reflexivity; cbn [step];
  unfold bind, connect, auto, priority, ip_port; sides; try reflexivity. now edestruct N.
Qed.
Theorem C90_text pl h1 i rc rc' t port h2 q :
  Forall (fun v => forall i rc rc' t port, v <> Addr i rc rc' t port) h2 ->
  q = run pl (h1 ++ Addr i rc rc' t port :: h2) ->
  q_out (step q Look) = q_out q ++ [ESee (if rc <? 0 then [] else t)].
Proof.
  intros F ->. cbn [step emit q_out]. do 3 f_equal.
  induction h2 as [|v h2 IH] using rev_ind.
  - rewrite run_app. cbn [fold_left step]. unfold bound_addr. destruct (rc <? 0), (rc' <? 0); reflexivity.
  - apply Forall_app in F. destruct F as [F W]. apply Forall_inv in W.
    replace (h1 ++ Addr i rc rc' t port :: h2 ++ [v]) with ((h1 ++ Addr i rc rc' t port :: h2) ++ [v]) by now rewrite <- app_assoc.
    rewrite run_app. cbn [fold_left]. now rewrite buf_keep, IH.
Qed.
Theorem C90_text_refuted pl h i j t t' port port' :
  q_out (run pl (h ++ [Addr i 0 0 t port; Look; Addr j 0 0 t' port'; Look])) = q_out (run pl h) ++
    [EName (fst (fds pl h i)); EAddr port; ERet 0; ESee t; EName (fst (fds pl h j)); EAddr port'; ERet 0; ESee t'].
Proof. rewrite run_app. cbn. repeat rewrite <- app_assoc. reflexivity. Qed.

(** *** C90: what the library knows changes with no other call *)
Theorem C90_stale pl h1 h2 i :
  Forall (fun v => ~ asks (pl i) i v) h2 -> fds pl (h1 ++ h2) i = fds pl h1 i.
Proof.
  unfold fds. intros F. induction h2 as [|v h2 IH] using rev_ind; [now rewrite app_nil_r|].
  apply Forall_app in F. destruct F as [F W]. apply Forall_inv in W.
  rewrite app_assoc, run_app. cbn [fold_left]. rewrite step_not_asks; [now apply IH|]. now rewrite run_poll.
Qed.
(** *** C90 refuted in two cases: before the socket is bound (in poll mode even when it is
    connected) its priority is set on descriptor 0, the process's standard input, and its address
    asked of it; ... *)
Theorem C90_unbound_refuted pl h i p rc rc' a :
  Forall (fun v => ~ asks (pl i) i v) h ->
  0 <= rc ->
  q_out (run pl (h ++ [Priority i p rc rc'; IpPort i rc true a a a a 0])) = q_out (run pl h) ++
    [EPrio 0 p; EPrio 0 p; ERet rc'; EName 0; EIp (a * 2 ^ 24 + a * 2 ^ 16 + a * 2 ^ 8 + a) 0; ERet 0].
Proof.
  intros F R. rewrite run_app. cbn [fold_left step]. unfold priority, ip_port.
  pose proof (C90_stale pl [] h i F) as S0. cbn [app] in S0. unfold fds in S0. rewrite S0.
  destruct (Z.ltb_spec rc 0); [lia|]. cbn [emit q_sock]. rewrite S0. cbn. repeat rewrite <- app_assoc. reflexivity.
Qed.
(** *** ... and after a binding that failed it is the descriptor of the one before, which the
    session has given up *)
Theorem C90_rebind_refuted pl h i ss ss' rc p :
  rc < 0 ->
  q_out (run pl (h ++ [Bind i 0 ss; Bind i rc ss'; Priority i p 0 0])) = q_out (run pl h) ++
    [ERet 0; ERet rc; EPrio (fst ss) p; EPrio (snd ss) p; ERet 0] /\
  k_sess (q_sock (run pl (h ++ [Bind i 0 ss; Bind i rc ss'])) i) = ss'.
Proof.
  intros R. rewrite !run_app. cbn [fold_left step]. unfold bind. destruct (Z.ltb_spec rc 0); [|lia].
  cbn. rewrite !Nat.eqb_refl. cbn. repeat rewrite <- app_assoc. cbn. rewrite ?Nat.eqb_refl. split; reflexivity.
Qed.

(** *** C90: the statistics are the session's, each up to a multiple of 2^32 - so exact as long as
    they are below - and all 0 if it has none; they change nothing *)
Theorem C90_stats pl h i g j q :
  q = run pl h ->
  exists x1 x2 x3 x4 x5 x6,
  q_out (run pl (h ++ [Stats i g j])) = q_out q ++ [EStats [x1; x2; x3; x4; x5; x6]] /\
  match g with
  | Some g => shows x1 (g_psent g) /\ shows x2 (g_sent g) /\ shows x3 (g_precv g) /\ shows x4 (g_recv g) /\ shows x5 (g_lost g)
  | None => x1 = 0 /\ x2 = 0 /\ x3 = 0 /\ x4 = 0 /\ x5 = 0 end /\
  match j with Some j => shows x6 j | None => x6 = 0 end.
Proof.
  intros ->. rewrite run_app. cbn [fold_left step]. unfold get_stats.
  assert (U : forall z, shows (u32 z) z).
  { intros z. unfold shows, u32. split; [apply Z.mod_pos_bound; reflexivity|]. exists (z / 2 ^ 32).
    rewrite Z.mul_comm. apply Z.div_mod. discriminate. }
  destruct g as [g|]; do 6 eexists; (split; [reflexivity|]); (split; [repeat (split; [apply U || reflexivity|]); (apply U || reflexivity)|]); destruct j; try apply U; reflexivity.
Qed.
Theorem C90_stats_exact x g : shows x g -> 0 <= g < 2 ^ 32 -> x = g.
Proof.
  intros [B [n H]] G. change (2 ^ 32) with 4294967296 in *. assert (n = 0) by lia. subst n. lia.
Qed.

(** a socket bound, connected and asked; another one in poll mode, connected but never bound *)
Example C90_example :
  let pl := fun i => Nat.eqb i 1 in
  let h := [Bind 0 0 (7, 8); Connect 1 4000 0 (9, 10); Connect 0 5000 0 (7, 8)] in
  q_out (run pl (h ++ [Priority 0 5 0 0; IpPort 0 0 true 127 0 0 1 4002; Addr 0 0 0 [49; 50] 4002; Look; Priority 1 5 0 0]))
  = [ERet 0; EPrio 7 5; EPrio 8 5; ERet 0; EName 7; EIp 2130706433 4002; ERet 0; EName 7; EAddr 4002; ERet 0; ESee [49; 50]; EPrio 0 5; EPrio 0 5; ERet 0]
  /\ settled (pl 0%nat) 0 (7, 8) (Bind 0 0 (7, 8)) [Connect 1 4000 0 (9, 10); Connect 0 5000 0 (7, 8)]
  /\ Forall (fun v => ~ asks (pl 1%nat) 1 v) h.
Proof.
  split; [vm_compute; reflexivity|]. split.
  - split; [easy|]. split; [|apply Exists_cons_hd; cbn; lia]. apply Forall_cons; [cbn; intros [H _]; discriminate H|]. apply Forall_cons; [easy|apply Forall_nil].
  - apply Forall_cons; [cbn; intros [H _]; discriminate H|]. apply Forall_cons; [cbn; intros (_ & _ & _ & H); discriminate H|].
    apply Forall_cons; [cbn; intros [H _]; discriminate H|apply Forall_nil].
Qed.
(** a socket never bound, connected before it was asked to connect by itself in the select loop *)
Example C90_auto_example :
  settled false 0 (7, 8) (Connect 0 5000 (-1) (7, 8)) [Auto 0] /\
  q_out (run (fun _ => false) [Connect 0 5000 (-1) (7, 8); Auto 0; Priority 0 5 0 0]) = [EPrio 7 5; EPrio 8 5; ERet 0].
Proof.
  split; [|vm_compute; reflexivity]. split; [easy|]. split; [apply Forall_cons; [easy|apply Forall_nil]|].
  apply Exists_cons_tl, Exists_cons_hd. easy.
Qed.
