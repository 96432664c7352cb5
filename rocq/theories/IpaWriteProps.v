(** C92: client connections with a write callback of the application's own. *)
From Coq Require Import List Arith Bool ZArith Lia.
From Verif Require Import Base IpaModel IpaSpec IpaWriteModel.
Import ListNotations.
Open Scope Z_scope.

(** messages accepted; messages the application took or had cleared; calls of the callback *)
Definition w_accepted (l : list wout) : list msg := flat_map (fun o => match o with Lib (Acc m) => [m] | _ => [] end) l.
Definition w_gone (l : list wout) : list msg := flat_map (fun o => match o with Lib (Cleared ms) => ms | Took m => [m] | _ => [] end) l.
Definition w_asked (l : list wout) : nat := length (filter (fun o => match o with Asked => true | _ => false end) l).
Definition is_send (o : wout) : bool := match o with Lib (Tried _ _) => true | _ => false end.

Definition qr (q : list msg) (o : list wout) (q' : list msg) : Prop :=
  q ++ w_accepted o = w_gone o ++ q' /\ existsb is_send o = false.
Lemma qr_refl q : qr q [] q.
Proof. split; [apply app_nil_r|reflexivity]. Qed.
Lemma qr_trans q o q1 o1 q2 : qr q o q1 -> qr q1 o1 q2 -> qr q (o ++ o1) q2.
Proof.
  intros [A B] [A1 B1]. split.
  - unfold w_accepted, w_gone in *. rewrite !flat_map_app, app_assoc, A, <- app_assoc, A1, app_assoc. reflexivity.
  - now rewrite existsb_app, B, B1.
Qed.
Lemma qr_one q x : match x with Lib (Acc _) | Lib (Cleared _) | Lib (Tried _ _) | Took _ => False | _ => True end -> qr q [x] q.
Proof. destruct x as [[]| |]; try (now intros []); intros _; split; try reflexivity; cbn; now rewrite app_nil_r. Qed.
Lemma act_q c a c' o : client_act c a = Some (c', o) -> qr (c_q c) (map Lib o) (c_q c').
Proof.
  unfold client_act. destruct (negb (c_alive c)); [discriminate|]. intros E. injection E as E. destruct a; cbn in E.
  - injection E as <- <-. cbn. destruct (c_fd c); cbn; [apply (qr_trans _ [Lib Closed] (c_q c)); now apply qr_one|now apply qr_one].
  - unfold ipa_client_conn_open2 in E. destruct (c_fd c); [|destruct (sock_rc <? 0); [|destruct reg]]; cbn in E; injection E as <- <-; cbn.
    all: try now apply qr_one. apply (qr_trans _ [Lib Opened] (c_q c)); now apply qr_one.
  - injection E as <- <-. split; reflexivity.
  - injection E as <- <-. split; [|reflexivity]. cbn. now rewrite !app_nil_r.
  - injection E as <- <-. apply qr_refl.
Qed.
Lemma acts_q l : forall c c' o, client_acts c l = Some (c', o) -> qr (c_q c) (map Lib o) (c_q c').
Proof.
  induction l as [|a l IH]; cbn; intros c c' o E; [injection E as <- <-; apply qr_refl|].
  destruct (client_act c a) as [[c1 o1]|] eqn:A; [|discriminate]. cbn in E. destruct (client_acts c1 l) as [[c2 o2]|] eqn:B; [|discriminate].
  injection E as <- <-. rewrite map_app. eapply qr_trans; [eapply act_q; eassumption|now apply IH].
Qed.
Lemma down_q c u c' o : go_down c u = Some (c', o) -> qr (c_q c) (map Lib o) (c_q c').
Proof.
  unfold go_down. cbn. match goal with |- context [client_acts ?x u] => destruct (client_acts x u) as [[c1 o1]|] eqn:A end; [|discriminate].
  intros E. injection E as <- <-. apply acts_q in A. cbn in A.
  rewrite map_app. apply qr_trans with (c_q c); [destruct (c_fd c); [now apply qr_one|apply qr_refl]|].
  change (map Lib (Down :: o1)) with ([Lib Down] ++ map Lib o1). apply qr_trans with (c_q c); [now apply qr_one|exact A].
Qed.
Lemma wact_q c a c' o : wact_do c a = Some (c', o) -> qr (c_q c) o (c_q c').
Proof.
  destruct a as [a| |]; cbn.
  - destruct (client_act c a) as [[c1 o1]|] eqn:A; [|discriminate]. intros E. injection E as <- <-. now apply act_q in A.
  - destruct (negb (c_alive c)); [discriminate|]. destruct (c_q c) as [|m q] eqn:Q; intros E; injection E as <- <-; [rewrite Q; apply qr_refl|].
    split; [cbn; now rewrite app_nil_r|reflexivity].
  - destruct (negb (c_alive c)); [discriminate|]. intros E; injection E as <- <-. apply qr_refl.
Qed.
Lemma wacts_q l : forall c c' o, wacts_do c l = Some (c', o) -> qr (c_q c) o (c_q c').
Proof.
  induction l as [|a l IH]; cbn; intros c c' o E; [injection E as <- <-; apply qr_refl|].
  destruct (wact_do c a) as [[c1 o1]|] eqn:A; [|discriminate]. cbn in E. destruct (wacts_do c1 l) as [[c2 o2]|] eqn:B; [|discriminate].
  injection E as <- <-. eapply qr_trans; [eapply wact_q; eassumption|now apply IH].
Qed.
Lemma read_q c r ra rret u c' o ret : ipa_client_read c r ra rret u = Some (c', o, ret) -> qr (c_q c) (map Lib o) (c_q c').
Proof.
  destruct r; cbn [ipa_client_read].
  - destruct (client_acts c ra) as [[c1 o1]|] eqn:A; [|discriminate]. intros E. injection E as <- <- _.
    change (map Lib (Rx m :: o1)) with ([Lib (Rx m)] ++ map Lib o1). apply qr_trans with (c_q c); [now apply qr_one|now apply acts_q in A].
  - intros E. injection E as <- <- _. apply qr_refl.
  - destruct (go_down c u) as [[c1 o1]|] eqn:A; [|discriminate]. intros E. injection E as <- <- _. now apply down_q in A.
Qed.
Lemma wstep_q c op c' o : wstep c op = Some (c', o) -> qr (c_q c) o (c_q c').
Proof.
  destruct op as [l|rd wr e r ra rret w u|u]; cbn [wstep].
  - destruct (client_acts c l) as [[c1 o1]|] eqn:A; [|discriminate]. intros E; injection E as <- <-. now apply acts_q in A.
  - unfold fd_cb. destruct (negb (c_fd c)); [intros E; injection E as <- <-; apply qr_refl|].
    destruct (negb (rd || wr && c_wr c)); [intros E; injection E as <- <-; apply qr_refl|]. destruct (negb (c_alive c)); [discriminate|].
    destruct (negb (c_conn c)).
    + destruct e.
      * destruct (ipa_connect_failure c u) as [[c1 o1]|] eqn:A; [|discriminate]. intros E; injection E as <- <-. now apply down_q in A.
      * destruct (client_acts (mkC (c_alive c) (c_fd c) true false false (c_q c)) u) as [[c1 o1]|] eqn:A; [|discriminate]. intros E; injection E as <- <-. apply acts_q in A.
        change (Lib Up :: map Lib o1) with ([Lib Up] ++ map Lib o1). apply qr_trans with (c_q c); [now apply qr_one|exact A].
    + assert (RD : forall c1 o1 ret, (if rd then ipa_client_read c r ra rret u else Some (c, [], 0)) = Some (c1, o1, ret) -> qr (c_q c) (map Lib o1) (c_q c1)).
      { intros c1 o1 ret. destruct rd; [apply read_q|]. intros E; injection E as <- <- _. apply qr_refl. }
      destruct (if rd then _ else _) as [[[c1 o1] ret]|]; [|discriminate]. specialize (RD _ _ _ eq_refl).
      destruct (negb (ret =? EBADF) && (wr && c_wr c)); [|intros E; injection E as <- <-; exact RD].
      unfold write. destruct (negb (c_alive c1)); [discriminate|]. destruct (wacts_do c1 w) as [[c2 o2]|] eqn:A; [|discriminate].
      intros E; injection E as <- <-. apply wacts_q in A. apply qr_trans with (c_q c1); [exact RD|].
      change (Asked :: o2) with ([Asked] ++ o2). apply qr_trans with (c_q c1); [now apply qr_one|exact A].
  - unfold ipa_connect_timeout_cb. destruct (negb (c_timer c)); [intros E; injection E as <- <-; apply qr_refl|]. destruct (negb (c_alive c)); [discriminate|].
    unfold ipa_connect_failure. match goal with |- context [go_down ?x u] => destruct (go_down x u) as [[c1 o1]|] eqn:A end; [|discriminate].
    intros E; injection E as <- <-. now apply down_q in A.
Qed.
Lemma wrun_q ops : forall c c' o, wrun c ops = Some (c', o) -> qr (c_q c) o (c_q c').
Proof.
  induction ops as [|op ops IH]; cbn; intros c c' o E; [injection E as <- <-; apply qr_refl|].
  destruct (wstep c op) as [[c1 o1]|] eqn:A; [|discriminate]. cbn in E. destruct (wrun c1 ops) as [[c2 o2]|] eqn:B; [|discriminate].
  injection E as <- <-. eapply qr_trans; [eapply wstep_q; eassumption|now apply IH].
Qed.
(** *** C92: the library then sends nothing by itself: every message handed over stays queued, in
    order, until the application takes it or clears the queue *)
Theorem C92_queue ops c o : wrun client0 ops = Some (c, o) ->
  w_accepted o = w_gone o ++ c_q c /\ forall m r, ~ In (Lib (Tried m r)) o.
Proof.
  intros R. apply wrun_q in R. destruct R as [A B]. split; [exact A|]. intros m r H.
  assert (C : existsb is_send o = true) by (apply existsb_exists; exists (Lib (Tried m r)); split; [exact H|reflexivity]). congruence.
Qed.

Lemma asked_lib o : w_asked (map Lib o) = 0%nat.
Proof. unfold w_asked. induction o; [easy|assumption]. Qed.
Lemma asked_app a b : w_asked (a ++ b) = (w_asked a + w_asked b)%nat.
Proof. unfold w_asked. now rewrite filter_app, app_length. Qed.
Lemma wact_asked c a c' o : wact_do c a = Some (c', o) -> w_asked o = 0%nat.
Proof.
  destruct a as [a| |]; cbn.
  - destruct (client_act c a) as [[c1 o1]|]; [|discriminate]. intros E. injection E as _ <-. apply asked_lib.
  - destruct (negb (c_alive c)); [discriminate|]. destruct (c_q c); intros E; injection E as _ <-; reflexivity.
  - destruct (negb (c_alive c)); [discriminate|]. intros E; injection E as _ <-. reflexivity.
Qed.
Lemma wacts_asked l : forall c c' o, wacts_do c l = Some (c', o) -> w_asked o = 0%nat.
Proof.
  induction l as [|a l IH]; cbn; intros c c' o E; [injection E as _ <-; reflexivity|].
  destruct (wact_do c a) as [[c1 o1]|] eqn:A; [|discriminate]. cbn in E. destruct (wacts_do c1 l) as [[c2 o2]|] eqn:B; [|discriminate].
  injection E as _ <-. rewrite asked_app, (wact_asked _ _ _ _ A), (IH _ _ _ B). reflexivity.
Qed.
(** *** C92: an event on a connected link calls the callback exactly once if the socket is writable
    and this is asked for - unless reading in the same event lost the connection or the read callback
    returned -EBADF - and else not; no event on a link not connected yet, no timer and no API call does *)
Definition read_stops (rd : bool) (r : recv_res) (rret : Z) : bool :=
  rd && match r with RFail => true | RMsg _ => rret =? -9 | RAgain => false end.
Theorem C92_called c rd wr e r ra rret w u c' o : c_fd c = true -> c_conn c = true ->
  wstep c (WFd rd wr e r ra rret w u) = Some (c', o) ->
  w_asked o = if wr && c_wr c && negb (read_stops rd r rret) then 1%nat else 0%nat.
Proof.
  intros F C. cbn [wstep]. unfold fd_cb. rewrite F, C. cbn [negb].
  destruct (wr && c_wr c) eqn:W.
  - rewrite orb_true_r. cbn [negb andb]. destruct (negb (c_alive c)); [discriminate|].
    assert (RD : forall c1 o1 ret, (if rd then ipa_client_read c r ra rret u else Some (c, [], 0)) = Some (c1, o1, ret) -> (ret =? EBADF) = read_stops rd r rret).
    { intros c1 o1 ret. unfold read_stops. destruct rd; [|intros E; injection E as _ _ <-; reflexivity]. destruct r; cbn [ipa_client_read].
      - destruct (client_acts c ra) as [[]|]; [|discriminate]. intros E; injection E as _ _ <-. reflexivity.
      - intros E; injection E as _ _ <-. reflexivity.
      - destruct (go_down c u) as [[]|]; [|discriminate]. intros E; injection E as _ _ <-. reflexivity. }
    destruct (if rd then _ else _) as [[[c1 o1] ret]|]; [|discriminate]. rewrite (RD _ _ _ eq_refl).
    destruct (read_stops rd r rret); cbn [negb andb]; [intros E; injection E as _ <-; apply asked_lib|].
    unfold write. destruct (negb (c_alive c1)); [discriminate|]. destruct (wacts_do c1 w) as [[c2 o2]|] eqn:A; [|discriminate].
    intros E; injection E as _ <-. rewrite asked_app, asked_lib. cbn [fst snd Nat.add]. change (w_asked (Asked :: o2)) with (S (w_asked o2)). now rewrite (wacts_asked _ _ _ _ A).
  - rewrite orb_false_r. cbn [andb]. destruct rd; cbn [negb]; [|intros E; injection E as _ <-; reflexivity].
    destruct (negb (c_alive c)); [discriminate|]. destruct (ipa_client_read c r ra rret u) as [[[c1 o1] ret]|]; [|discriminate].
    rewrite andb_false_r. intros E; injection E as _ <-. apply asked_lib.
Qed.
Theorem C92_not_called c op c' o : wstep c op = Some (c', o) ->
  (forall rd wr e r ra rret w u, op = WFd rd wr e r ra rret w u -> c_fd c = false \/ c_conn c = false) -> w_asked o = 0%nat.
Proof.
  destruct op as [l|rd wr e r ra rret w u|u]; cbn [wstep]; intros E H.
  - destruct (client_acts c l) as [[c1 o1]|]; [|discriminate]. injection E as _ <-. apply asked_lib.
  - specialize (H _ _ _ _ _ _ _ _ eq_refl). unfold fd_cb in E. destruct H as [H|H]; [rewrite H in E; cbn in E; injection E as _ <-; reflexivity|].
    destruct (negb (c_fd c)); [injection E as _ <-; reflexivity|]. destruct (negb (rd || wr && c_wr c)); [injection E as _ <-; reflexivity|].
    destruct (negb (c_alive c)); [discriminate|]. rewrite H in E. cbn [negb] in E. destruct e.
    + destruct (ipa_connect_failure c u) as [[c1 o1]|]; [|discriminate]. injection E as _ <-. apply asked_lib.
    + match type of E with context [client_acts ?x u] => destruct (client_acts x u) as [[c1 o1]|] end; [|discriminate]. injection E as _ <-. apply (asked_lib (Up :: o1)).
  - destruct (ipa_connect_timeout_cb c u) as [[c1 o1]|]; [|discriminate]. injection E as _ <-. apply asked_lib.
Qed.
(** *** C92: it is for the application to stop this: as long as it does not disable it, a writable
    socket calls the callback again and again, with nothing to send too *)
Theorem C92_again ops c o k : wrun client0 ops = Some (c, o) -> c_alive c = true -> c_fd c = true -> c_conn c = true -> c_wr c = true ->
  wrun c (repeat (WFd false true false RAgain [] 0 [] []) k) = Some (c, repeat Asked k).
Proof.
  intros _ A F C W. induction k as [|k IH]; [reflexivity|]. cbn [repeat wrun wstep]. unfold fd_cb. rewrite F, C, W, A. cbn. unfold write. rewrite A. cbn. rewrite IH. reflexivity.
Qed.
(** ... and once it has, or after a connection came up, accepting a message enables it again *)
Theorem C92_enabled c m c' o : wstep c (WCall [ASend m]) = Some (c', o) -> c_wr c' = true /\ o = [Lib (Acc m)].
Proof.
  cbn. unfold client_act. destruct (negb (c_alive c)); [discriminate|]. cbn. intros E; injection E as <- <-. split; reflexivity.
Qed.

Example C92_example : forall a b,
  match wrun client0 [WCall [AOpen true 3 true]; WFd false true false RAgain [] 0 [] [ASend a]; WCall [ASend b]; WFd false true false RAgain [] 0 [WTake] []; WFd true true false RFail [] 0 [WTake] []] with
  | Some (c, o) => o = [Lib Opened; Lib (Ret 0); Lib Up; Lib (Acc a); Lib (Acc b); Asked; Took a; Lib Closed; Lib Down] /\ c_q c = [b]
  | None => False end.
Proof. intros a b. vm_compute. auto. Qed.
Example C92_again_witness : match wrun client0 [WCall [AOpen true 3 true]; WFd false true false RAgain [] 0 [] []; WCall [ASend [1]]] with
  | Some (c, o) => c_alive c = true /\ c_fd c = true /\ c_conn c = true /\ c_wr c = true | None => False end.
Proof. vm_compute. auto. Qed.
