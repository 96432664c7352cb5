(** C67: whether a packet goes to the application is the last callback setting alone. *)
From Coq Require Import List Arith Lia Bool ZArith.
From Verif Require Import Base OrtpModel OrtpSpec OrtpProps.
Import ListNotations.
Open Scope Z_scope.

(** the callback setting after these calls *)
Definition setting (b : bool) (c : cmd) : bool := match c with CCallback b' => b' | _ => b end.
Definition last_set (cs : list cmd) (b : bool) : bool := fold_left setting cs b.
(** the calls made outside of the callback; the callback sets no callback *)
Definition outside (v : ev) : list cmd := match v with App cs => cs | _ => [] end.
Definition modest (v : ev) : Prop := match v with Poll act | Ready act => Forall (fun c => forall b, c <> CCallback b) act | _ => True end.

Lemma fdreg_cb k s p : fdreg k s = Ok p -> cb (fst p) = cb s.
Proof.
  unfold fdreg. cbn [w_read r_reg tick emit next w_reg c_reg]. intros H. destruct (r_reg s); [discriminate|].
  destruct (negb (k_reg k (tick s))); [injection H as <-; reflexivity|]. destruct (c_reg s); [discriminate|].
  destruct (negb (k_reg k (S (tick s)))); injection H as <-; reflexivity.
Qed.
Lemma exec_cb k s c s' : exec k s c = Ok s' -> cb s' = setting (cb s) c.
Proof.
  unfold exec. intros H. destruct (freed s); [discriminate|]. destruct c as [port|port| |d|m d mk|a v|t|b|]; cbn [setting].
  - injection H as <-. reflexivity.
  - destruct (connect k port s) as [p|] eqn:E; [|discriminate]. injection H as <-. unfold ret. cbn [emit cb]. unfold connect in E.
    destruct (port =? 0); [injection E as <-; reflexivity|]. cbn [emit next w_up poll tick] in E.
    destruct (_ <? 0); [injection E as <-; reflexivity|]. destruct (poll s); [injection E as <-; reflexivity|]. now apply fdreg_cb in E.
  - destruct (autoconnect k s) as [p|] eqn:E; [|discriminate]. injection H as <-. unfold ret. cbn [emit cb]. unfold autoconnect in E.
    cbn [emit w_up poll] in E. destruct (poll s); [injection E as <-; reflexivity|]. now apply fdreg_cb in E.
  - injection H as <-. unfold ret, skipped. destruct (disabled s); reflexivity.
  - injection H as <-. unfold ret, send. destruct (disabled s); [reflexivity|]. destruct (negb _); reflexivity.
  - injection H as <-. unfold ret, set_param. destruct a; reflexivity.
  - injection H as <-. reflexivity.
  - injection H as <-. reflexivity.
  - injection H as <-. unfold free. destruct (r_reg s); cbn [emit w_reg c_reg]; destruct (c_reg s); reflexivity.
Qed.
Lemma execs_cb k cs : forall s s', execs k cs s = Ok s' -> cb s' = last_set cs (cb s).
Proof.
  induction cs as [|c r IH]; intros s s' H; cbn [execs] in H; [now injection H as <-|].
  destruct (exec k s c) as [s1|] eqn:E; [|discriminate]. apply exec_cb in E. apply IH in H. unfold last_set in *. cbn [fold_left]. now rewrite H, E.
Qed.
Lemma last_none cs : forall b, Forall (fun c => forall b, c <> CCallback b) cs -> last_set cs b = b.
Proof.
  unfold last_set. induction cs as [|c r IH]; intros b F; [reflexivity|]. cbn [fold_left]. rewrite IH by exact (Forall_inv_tail F).
  pose proof (Forall_inv F) as N. destruct c; try reflexivity. exfalso. now apply (N b0).
Qed.
Lemma recv_cb k act s p : Forall (fun c => forall b, c <> CCallback b) act -> recv k act s = Ok p -> cb (fst p) = cb s.
Proof.
  intros F H. unfold recv in H. destruct (k_recv _ _ _) as [q|]; [|injection H as <-; reflexivity].
  match type of H with context [if ?c then _ else _] => destruct c end; [|injection H as <-; reflexivity].
  destruct (execs k act _) as [s2|] eqn:E; [|discriminate]. injection H as <-. apply execs_cb in E. cbn [fst]. rewrite E. now rewrite last_none.
Qed.
Lemma step_cb k s v s' : modest v -> step k s v = Ok s' -> cb s' = last_set (outside v) (cb s).
Proof.
  intros M H. destruct v as [cs|act|act|]; cbn [step modest outside last_set fold_left] in *.
  - now apply execs_cb in H.
  - unfold poll_socket in H. destruct (freed s); [discriminate|]. destruct (disabled s); [injection H as <-; reflexivity|].
    destruct (recv k act s) as [p|] eqn:R; [|discriminate]. injection H as <-. now apply recv_cb in R.
  - destruct (r_reg s && r_read s); [|now injection H as <-]. unfold fd_cb in H. destruct (poll s); [injection H as <-; reflexivity|].
    destruct (recv k act s) as [p|] eqn:R; [|discriminate]. destruct (freed (fst p)); [discriminate|]. injection H as <-. now apply recv_cb in R.
  - injection H as <-. destruct (c_reg s); reflexivity.
Qed.
Lemma run_cb k vs : forall s s', Forall modest vs -> run k s vs = Ok s' -> cb s' = last_set (flat_map outside vs) (cb s).
Proof.
  induction vs as [|v r IH]; intros s s' F H; cbn [run flat_map] in *; [now injection H as <-|].
  destruct (step k s v) as [s1|] eqn:E; [|discriminate]. apply (step_cb _ _ _ _ (Forall_inv F)) in E. apply (IH _ _ (Forall_inv_tail F)) in H.
  unfold last_set in *. now rewrite H, E, fold_left_app.
Qed.
(** polling a connected socket: the application gets the packet libortp has if its last setting
    of the callback was one, and nothing otherwise; likewise when the select loop calls *)
Theorem C67_callback k t0 pl vs s act s' : run k (st_init pl t0) vs = Ok s -> Forall modest vs ->
  let on := last_set (flat_map outside vs) false in
  (step k s (Poll act) = Ok s' -> In EUp (out s) -> exists ts es r n, out s' = out s ++ EAsk ts :: es ++ [ERet (if r : bool then 1 else 0)] /\ delivers (k_recv k n ts) on es r) /\
  (step k s (Ready act) = Ok s' -> member false false (out s) = Some true -> exists ts es r n, out s' = out s ++ EAsk ts :: es ++ [EReadable] /\ delivers (k_recv k n ts) on es r).
Proof.
  intros R M on. assert (C : cb s = on) by (exact (run_cb _ _ _ _ M R)). rewrite <- C. split; intros H U.
  - exact (proj2 (C67_poll _ _ _ _ _ _ _ R H) U).
  - pose proof (C67_ready _ _ _ _ _ _ _ R H) as X. now rewrite U in X.
Qed.
(** the callback is set, taken away, set again: the last packet alone is lost or given *)
Example C67_callback_example :
  let k := kn (fun _ _ => Some hello) (fun _ => true) in
  let vs := [App [CCallback true; CConnect 4000]; Poll []; App [CCallback false]; Poll []; App [CCallback true]] in
  Forall modest vs /\ last_set (flat_map outside vs) false = true /\
  match run k (st_init true 7) vs with Ok s => In EUp (out s) /\ received (out s) = [hello] | Bad _ => False end.
Proof. split; [repeat (constructor; [cbn; constructor|]); constructor|]. split; [reflexivity|]. vm_compute. split; [tauto|reflexivity]. Qed.
Print Assumptions C67_callback.
