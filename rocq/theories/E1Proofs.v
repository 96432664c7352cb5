From Coq Require Import List Arith Lia Bool ZArith String Permutation.
From Verif Require Import Base E1Model E1Spec.
Import ListNotations.
Open Scope Z_scope.

(** ** runs *)
Lemma run_app a b w : run w (a ++ b) =
  (do x <- run w a; do y <- run (fst x) b; Some (fst y, snd x ++ snd y)).
Proof.
  revert w; induction a as [|o a IH]; intros w; cbn.
  - destruct (run w b) as [[? ?]|]; reflexivity.
  - destruct (step w o) as [[w1 o1]|]; [|reflexivity]. cbn. rewrite IH.
    destruct (run w1 a) as [[w2 l2]|]; [|reflexivity]. cbn.
    destruct (run w2 b) as [[? ?]|]; reflexivity.
Qed.
Lemma run_inv (P : world -> history -> Prop) :
  P world0 [] ->
  (forall w h o w' outs, P w h -> step w o = Some (w', outs) -> P w' (h ++ [(o, outs)])) ->
  forall ops w h, run world0 ops = Some (w, h) -> P w h.
Proof.
  intros H0 HS ops. induction ops as [|o ops IH] using rev_ind; intros w h.
  - cbn. intros E; inversion E; subst; exact H0.
  - rewrite run_app. destruct (run world0 ops) as [[w1 h1]|] eqn:E1; [|discriminate]. cbn.
    destruct (step w1 o) as [[w2 o2]|] eqn:E2; [|discriminate]. cbn.
    intros E; inversion E; subst. eapply HS; eauto.
Qed.

(** ** the line table as a function *)
Definition with_uses (l : line) u : line := mkLine (ln_id l) (ln_num l) u (ln_ts l) (ln_ctr l).
Definition with_ts (l : line) tss : line := mkLine (ln_id l) (ln_num l) (ln_uses l) tss (ln_ctr l).
Definition with_nl (w : world) nl : world := mkWorld (w_lines w) (w_clones w) (w_ctrs w) (w_next w) nl.
Definition updf {A} (f : nat -> option A) k v : nat -> option A := fun x => if Nat.eqb x k then v else f x.

Lemma find_id_in (ls : list line) lid l :
  find (fun l => Nat.eqb (ln_id l) lid) ls = Some l -> In l ls /\ ln_id l = lid.
Proof. intros H. apply find_some in H. destruct H as [H1 H2]. apply Nat.eqb_eq in H2. auto. Qed.
Lemma find_id_nodup (ls : list line) l :
  NoDup (map ln_id ls) -> In l ls -> find (fun x => Nat.eqb (ln_id x) (ln_id l)) ls = Some l.
Proof.
  induction ls as [|a ls IH]; cbn; [contradiction|]. intros N [E|H].
  - subst. now rewrite Nat.eqb_refl.
  - inversion N; subst. destruct (Nat.eqb_spec (ln_id a) (ln_id l)) as [E|E]; [|auto].
    exfalso. apply H2. rewrite E. now apply in_map.
Qed.
Lemma find_id_none (ls : list line) lid : find (fun x => Nat.eqb (ln_id x) lid) ls = None <-> ~ In lid (map ln_id ls).
Proof.
  split.
  - intros H I. apply in_map_iff in I. destruct I as [l [E I]]. subst.
    pose proof (find_none _ _ H l I) as Q. cbn in Q. now rewrite Nat.eqb_refl in Q.
  - intros H. destruct (find _ ls) eqn:E; [|reflexivity]. apply find_id_in in E. destruct E as [E1 E2].
    exfalso. apply H. rewrite <- E2. now apply in_map.
Qed.

Definition upd1 (l' : line) := fun l => if Nat.eqb (ln_id l) (ln_id l') then l' else l.
Lemma upd1_id l' l : ln_id (upd1 l' l) = ln_id l.
Proof. unfold upd1. destruct (Nat.eqb_spec (ln_id l) (ln_id l')); auto. Qed.
Lemma map_upd1_ids l' ls : map ln_id (map (upd1 l') ls) = map ln_id ls.
Proof. rewrite map_map. apply map_ext. apply upd1_id. Qed.
Lemma set_line_ids w l' : map ln_id (all_lines (set_line w l')) = map ln_id (all_lines w).
Proof. unfold set_line, map_lines, all_lines; cbn. fold (upd1 l'). now rewrite !map_app, !map_upd1_ids. Qed.
Lemma find_map_upd1 l' ls lid :
  find (fun l => Nat.eqb (ln_id l) lid) (map (upd1 l') ls) =
  match find (fun l => Nat.eqb (ln_id l) lid) ls with
  | Some l => Some (upd1 l' l) | None => None end.
Proof.
  induction ls as [|a ls IH]; cbn; [reflexivity|].
  rewrite upd1_id. destruct (Nat.eqb (ln_id a) lid); auto.
Qed.
Lemma find_set_line w l l' : find_line w (ln_id l') = Some l ->
  forall x, find_line (set_line w l') x = updf (find_line w) (ln_id l') (Some l') x.
Proof.
  intros H x. unfold find_line, set_line, map_lines, all_lines, updf in *. cbn. fold (upd1 l').
  rewrite <- map_app, find_map_upd1.
  destruct (Nat.eqb_spec x (ln_id l')) as [->|N].
  - rewrite H. apply find_id_in in H. destruct H as [_ H]. unfold upd1. now rewrite H, Nat.eqb_refl.
  - destruct (find (fun l : line => (ln_id l =? x)%nat) (w_lines w ++ w_clones w)) eqn:E; [|reflexivity].
    apply find_id_in in E. destruct E as [_ E]. unfold upd1.
    destruct (Nat.eqb_spec (ln_id l0) (ln_id l')); [congruence|reflexivity].
Qed.
Lemma set_line_twice w l1 l2 : ln_id l1 = ln_id l2 -> set_line (set_line w l1) l2 = set_line w l2.
Proof.
  intros E. unfold set_line, map_lines; cbn. rewrite !map_map.
  f_equal; apply map_ext; intros a; rewrite E; destruct (Nat.eqb_spec (ln_id a) (ln_id l2)) as [Q|Q].
  1,3: now rewrite E, Nat.eqb_refl.
  all: destruct (Nat.eqb_spec (ln_id a) (ln_id l2)); congruence.
Qed.

Definition keep (lid : nat) := fun x : line => negb (Nat.eqb (ln_id x) lid).
Definition last_of (w : world) (l : line) : bool :=
  Nat.eqb (List.length (filter (fun x => Nat.eqb (ln_ctr x) (ln_ctr l)) (all_lines w)) - 1) 0.
Definition rem_line (w : world) (l : line) : world :=
  mkWorld (filter (keep (ln_id l)) (w_lines w)) (filter (keep (ln_id l)) (w_clones w))
    (if last_of w l then filter (fun c => negb (Nat.eqb c (ln_ctr l))) (w_ctrs w) else w_ctrs w) (w_next w) (w_next_link w).
Definition frees (w : world) (l : line) : list out :=
  (if last_of w l then [CtrFreed (ln_ctr l)] else []) ++ [LineFreed (ln_id l)].
Lemma find_filter_keep ls lid x :
  find (fun l => Nat.eqb (ln_id l) x) (filter (keep lid) ls) =
  if Nat.eqb x lid then None else find (fun l => Nat.eqb (ln_id l) x) ls.
Proof.
  induction ls as [|a ls IH]; cbn; [now destruct (Nat.eqb x lid)|].
  unfold keep at 1. destruct (Nat.eqb_spec (ln_id a) lid) as [E|E]; cbn.
  - rewrite IH. destruct (Nat.eqb_spec x lid); [reflexivity|].
    destruct (Nat.eqb_spec (ln_id a) x); [congruence|reflexivity].
  - destruct (Nat.eqb_spec (ln_id a) x); [|exact IH].
    destruct (Nat.eqb_spec x lid); [congruence|reflexivity].
Qed.
Lemma find_rem_line w l x : find_line (rem_line w l) x = updf (find_line w) (ln_id l) None x.
Proof. unfold find_line, rem_line, all_lines, updf; cbn. rewrite <- filter_app. apply find_filter_keep. Qed.

Arguments use_total : simpl never.
(** ** well-formed worlds *)
Record WF (w : world) : Prop := {
  wf_ids : NoDup (map ln_id (all_lines w));
  wf_next : forall l, In l (all_lines w) -> (ln_id l < w_next w)%nat;
  wf_nums : NoDup (map ln_num (w_lines w));
  wf_pos : forall l, In l (all_lines w) -> 0 < use_total (ln_uses l);
  wf_len : forall l, In l (all_lines w) -> List.length (ln_ts l) = NUM_E1_TS }.
Lemma find_in w lid l : WF w -> (find_line w lid = Some l <-> In l (all_lines w) /\ ln_id l = lid).
Proof.
  intros W; split; intros H.
  - now apply find_id_in in H.
  - destruct H as [H E]; subst. apply find_id_nodup; auto. apply W.
Qed.
Lemma find_next w lid l : WF w -> find_line w lid = Some l -> (lid < w_next w)%nat.
Proof. intros W H. apply find_in in H; auto. destruct H as [H E]; subst. now apply W. Qed.
Lemma find_fresh w lid : WF w -> (w_next w <= lid)%nat -> find_line w lid = None.
Proof. intros W H. destruct (find_line w lid) eqn:E; [|reflexivity]. pose proof (find_next w lid l W E). lia. Qed.

Lemma use_total_add u name d : use_total (use_add u name d) = use_total u + d.
Proof.
  unfold use_total. induction u as [|[n c] u IH]; cbn [use_add fold_right snd].
  - destruct (Z.eqb_spec d 0); cbn [fold_right snd]; lia.
  - destruct (String.eqb n name); [|cbn [fold_right snd]; rewrite IH; lia].
    destruct (Z.eqb_spec (c + d) 0); cbn [fold_right snd]; lia.
Qed.

(** ** what each step does *)
Definition put_ts (l : line) n t : line := with_ts l (firstn n (ln_ts l) ++ t :: skipn (S n) (ln_ts l)).
Lemma get_lt {A} (l : list A) n t : get l n = Some t -> (n < List.length l)%nat.
Proof. intros H. apply nth_error_Some. unfold get in H. congruence. Qed.
Lemma put_get {A} (l : list A) n t v : get l n = Some t -> put l n v = Some (firstn n l ++ v :: skipn (S n) l).
Proof. intros H. unfold put. apply get_lt in H. destruct (Nat.ltb_spec n (List.length l)); [reflexivity|lia]. Qed.
Lemma get_put_ts l n t v x : get (ln_ts l) n = Some t ->
  get (ln_ts (put_ts l n v)) x = if Nat.eqb x n then Some v else get (ln_ts l) x.
Proof.
  intros H. pose proof (get_lt _ _ _ H) as L. unfold get, put_ts in *; cbn.
  assert (Hf : List.length (firstn n (ln_ts l)) = n) by (rewrite firstn_length; lia).
  destruct (Nat.eqb_spec x n) as [->|N].
  - rewrite nth_error_app2 by lia. now rewrite Hf, Nat.sub_diag.
  - destruct (Nat.lt_ge_cases x n).
    + rewrite nth_error_app1 by lia. rewrite <- (firstn_skipn n (ln_ts l)) at 2. rewrite nth_error_app1 by lia. reflexivity.
    + rewrite nth_error_app2 by lia. rewrite Hf.
      replace (x - n)%nat with (S (x - S n)) by lia. cbn.
      rewrite <- (firstn_skipn (S n) (ln_ts l)) at 2. rewrite nth_error_app2 by (rewrite firstn_length; lia).
      rewrite firstn_length. f_equal. lia.
Qed.
Lemma set_ts_eq w l n t v : get (ln_ts l) n = Some t -> set_ts w l n v = Some (set_line w (put_ts l n v)).
Proof. intros H. unfold set_ts. now rewrite (put_get _ _ _ _ H). Qed.
Lemma put_ts_len l n t v : get (ln_ts l) n = Some t -> List.length (ln_ts (put_ts l n v)) = List.length (ln_ts l).
Proof.
  intros H. apply get_lt in H. change (ln_ts (put_ts l n v)) with (firstn n (ln_ts l) ++ v :: skipn (S n) (ln_ts l)).
  rewrite app_length, firstn_length. cbn [List.length]. pose proof (skipn_length (S n) (ln_ts l)) as S. lia.
Qed.

Definition new_line (w : world) num : line := mkLine (w_next w) num [("ctor"%string, 1)] (repeat ts_zero NUM_E1_TS) (w_next w).
Definition add_line (w : world) num : world :=
  mkWorld (w_lines w ++ [new_line w num]) (w_clones w) (w_next w :: w_ctrs w) (S (w_next w)) (w_next_link w).
Definition new_clone (w : world) l name : line := mkLine (w_next w) (ln_num l) [(name, 1)] (ln_ts l) (ln_ctr l).
Definition add_clone (w : world) l name : world :=
  mkWorld (w_lines w) (w_clones w ++ [new_clone w l name]) (w_ctrs w) (S (w_next w)) (w_next_link w).

Lemma locate_some w id lid n : WF w -> locate w id = Some (lid, n) ->
  exists l t, find_line w lid = Some l /\ get (ln_ts l) n = Some t /\ ts_has id t = true.
Proof.
  intros W. unfold locate.
  assert (G : forall ls, (forall l, In l ls -> In l (all_lines w)) ->
    fold_right (fun l acc => match ts_index id (ln_ts l) with Some n => Some (ln_id l, n) | None => acc end) None ls = Some (lid, n) ->
    exists l t, find_line w lid = Some l /\ get (ln_ts l) n = Some t /\ ts_has id t = true).
  { induction ls as [|a ls IH]; cbn; [discriminate|]. intros HI.
    destruct (ts_index id (ln_ts a)) as [k|] eqn:E.
    - intros Q; inversion Q; subst. exists a.
      assert (X : forall tss k, ts_index id tss = Some k -> exists t, get tss k = Some t /\ ts_has id t = true).
      { induction tss as [|b tss IHt]; cbn; [discriminate|]. intros k0.
        destruct (ts_has id b) eqn:Hb.
        - intros Q1; inversion Q1; subst. exists b. split; [reflexivity|exact Hb].
        - destruct (ts_index id tss) as [k1|]; [|discriminate]. cbn. intros Q1; inversion Q1; subst.
          destruct (IHt k1 eq_refl) as [t [T1 T2]]. exists t. split; [exact T1|exact T2]. }
      destruct (X _ _ E) as [t [T1 T2]]. exists t. repeat split; auto.
      apply find_in; auto.
    - intros Q. apply IH; auto. }
  apply G. auto.
Qed.

(** the outcome of adding [d] to a use count of the line whose (new) state is [l'] *)
Definition use_res (w : world) (l' : line) (w' : world) (outs : list out) : Prop :=
  (0 < use_total (ln_uses l') /\ w' = set_line w l' /\ outs = []) \/
  (use_total (ln_uses l') <= 0 /\ w' = rem_line w l' /\ outs = frees w l').
Lemma line_use_cb_res w l' w' outs : line_use_cb w l' = (w', outs) -> use_res w l' w' outs.
Proof.
  unfold line_use_cb, use_res. destruct (Z.ltb_spec 0 (use_total (ln_uses l'))).
  - intros E; inversion E; subst. auto.
  - intros E; inversion E; subst. right. repeat split; auto.
Qed.
Lemma use_res_after_set w l1 l2 w' outs : ln_id l1 = ln_id l2 -> 
  (forall x, In x (all_lines w) -> ln_id x = ln_id l1 -> ln_ctr x = ln_ctr l1) -> ln_ctr l1 = ln_ctr l2 ->
  use_res (set_line w l1) l2 w' outs -> use_res w l2 w' outs.
Proof.
  intros E C C2 [[H1 [H2 H3]]|[H1 [H2 H3]]].
  - left. rewrite set_line_twice in H2; auto.
  - right. split; [exact H1|].
    assert (F : forall ls, filter (keep (ln_id l2)) (map (upd1 l1) ls) = filter (keep (ln_id l2)) ls).
    { induction ls as [|a ls IH]; cbn [map filter]; [reflexivity|].
      assert (KA : keep (ln_id l2) (upd1 l1 a) = keep (ln_id l2) a) by (unfold keep; now rewrite upd1_id).
      rewrite KA, IH. destruct (keep (ln_id l2) a) eqn:KB; [|reflexivity]. unfold keep in KB.
      destruct (Nat.eqb_spec (ln_id a) (ln_id l2)) as [Q|Q]; [discriminate|].
      f_equal. unfold upd1. destruct (Nat.eqb_spec (ln_id a) (ln_id l1)); [congruence|reflexivity]. }
    assert (K : forall ls, (forall x, In x ls -> In x (all_lines w)) ->
      List.length (filter (fun x => Nat.eqb (ln_ctr x) (ln_ctr l2)) (map (upd1 l1) ls)) =
      List.length (filter (fun x => Nat.eqb (ln_ctr x) (ln_ctr l2)) ls)).
    { induction ls as [|a ls IH]; cbn; [reflexivity|]. intros HI.
      assert (Q : ln_ctr (upd1 l1 a) = ln_ctr a).
      { unfold upd1. destruct (Nat.eqb_spec (ln_id a) (ln_id l1)); [|reflexivity]. symmetry. apply C; auto. }
      rewrite Q. destruct (Nat.eqb (ln_ctr a) (ln_ctr l2)); cbn; rewrite IH; auto. }
    assert (L : last_of (set_line w l1) l2 = last_of w l2).
    { unfold last_of. unfold set_line, map_lines, all_lines; cbn. fold (upd1 l1). rewrite <- map_app, K; auto. }
    split.
    + rewrite H2. unfold rem_line. rewrite L. unfold set_line, map_lines; cbn. fold (upd1 l1). now rewrite !F.
    + rewrite H3. unfold frees. now rewrite L.
Qed.
Lemma same_ctr w l : WF w -> find_line w (ln_id l) = Some l ->
  forall x, In x (all_lines w) -> ln_id x = ln_id l -> ln_ctr x = ln_ctr l.
Proof.
  intros W H x HI E. assert (find_line w (ln_id l) = Some x) by (apply find_in; auto). congruence.
Qed.

(** what a timeslot operation does to its timeslot *)
Definition ts_op (o : op) (lid n : nat) (t t' : ts) (outs : list out) : Prop :=
  match o with
  | Config l k ty => l = lid /\ k = n /\
      t' = snd (fst (e1inp_ts_config t ty)) /\ outs = [MsgsFreed (snd (e1inp_ts_config t ty)); Ret 0]
  | Send id m => ts_has id t = true /\ t' = ts_send t id m /\ outs = [Ret 0]
  | SendQueue l k ty m => l = lid /\ k = n /\ ts_send_queue t ty m = Some t' /\ outs = [Ret 0]
  | WriteReady l k => l = lid /\ k = n /\ exists res, ts_write_ready t = Some (res, t') /\
      outs = match res with WrSign lk m => [Sent (lk_id lk) m] | WrQueued m => [SentRaw m] | WrNone => [] end
  | Timeout l k => l = lid /\ k = n /\ t' = ts_timeout t /\ outs = []
  | _ => False
  end.

Definition shape (w : world) (o : op) (w' : world) (outs : list out) : Prop :=
  match o with
  | Create num drv =>
    (w' = w /\ outs = [Refused] /\ (drv = false \/ e1inp_line_find w num <> None)) \/
    (drv = true /\ e1inp_line_find w num = None /\ w' = add_line w num /\ outs = [Created (w_next w)])
  | Clone lid name => exists l, find_line w lid = Some l /\ w' = add_clone w l name /\ outs = [Created (w_next w)] /\
      Forall (fun t => t_type t = TS_NONE) (ln_ts l)
  | Get lid name => exists l, find_line w lid = Some l /\ w' = set_line w (with_uses l (use_add (ln_uses l) name 1)) /\ outs = []
  | Put lid name => exists l, find_line w lid = Some l /\ use_res w (with_uses l (use_add (ln_uses l) name (-1))) w' outs
  | Config _ _ _ | Send _ _ | SendQueue _ _ _ _ | WriteReady _ _ | Timeout _ _ =>
    exists lid n l t t', find_line w lid = Some l /\ get (ln_ts l) n = Some t /\
      ts_op o lid n t t' outs /\ w' = set_line w (put_ts l n t')
  | LinkCreate lid n ty tei sapi =>
    exists l t, find_line w lid = Some l /\ get (ln_ts l) n = Some t /\
    ((t_type t <> TS_SIGN /\ w' = w /\ outs = [Refused]) \/
     (exists t', ts_link_create t (w_next_link w) ty tei sapi = Some t' /\
       w' = with_nl (set_line w (with_uses (put_ts l n t') (use_add (ln_uses l) SIGN_LINK 1))) (S (w_next_link w)) /\
       outs = [LinkMade (w_next_link w)]))
  | LinkDestroy id =>
    exists lid n l t t' freed outs', find_line w lid = Some l /\ get (ln_ts l) n = Some t /\ ts_has id t = true /\
      ts_link_destroy t id = Some (t', freed) /\
      use_res w (with_uses (put_ts l n t') (use_add (ln_uses l) SIGN_LINK (-1))) w' outs' /\
      outs = LinkGone id lid freed :: outs'
  | SendNull m => w' = w /\ outs = [MsgsFreed [m]; Ret EINVAL]
  | Rx lid n cb m tei sapi => w' = w /\ exists l t, find_line w lid = Some l /\ get (ln_ts l) n = Some t /\
      outs = match e1inp_rx_ts t cb m tei sapi with
             | (rc, RxSign lk m) => [Received (lk_id lk) m; Ret rc]
             | (rc, RxRaw m) | (rc, RxHdlc m) => [ReceivedTs m; Ret rc]
             | (rc, RxDemux m) | (rc, RxI460 m) => [ReceivedTs m; MsgsFreed [m]; Ret rc]
             | (rc, RxNoLink) | (rc, RxNoHandler) | (rc, RxBad) => [MsgsFreed [m]; Ret rc]
             end
  end.

Lemma get_ts_some w lid n x : get_ts w lid n = Some x -> find_line w lid = Some (fst x) /\ get (ln_ts (fst x)) n = Some (snd x).
Proof.
  unfold get_ts. destruct (find_line w lid) as [l|]; [|discriminate].
  destruct (get (ln_ts l) n) as [t|] eqn:E; [|discriminate]. intros Q; inversion Q; subst; auto.
Qed.
Lemma find_self w lid l : find_line w lid = Some l -> ln_id l = lid.
Proof. intros H. now apply find_id_in in H. Qed.

Lemma config_rc t ty : fst (fst (e1inp_ts_config t ty)) = 0.
Proof. unfold e1inp_ts_config. destruct (type_eqb _ _); [reflexivity|]. now destruct (cleanup_e1inp_ts t) as [[? ?] ?]. Qed.

Lemma step_shape w o w' outs : WF w -> step w o = Some (w', outs) -> shape w o w' outs.
Proof.
  intros W. destruct o; unfold step, shape.
  - (* Create *) unfold e1inp_line_create. destruct (e1inp_line_find w num) eqn:E.
    + intros Q; inversion Q; subst. left. repeat split; auto. right. congruence.
    + destruct drv; cbn; intros Q; inversion Q; subst; [right|left]; auto.
  - (* Clone *) unfold e1inp_line_clone. destruct (find_line w lid) as [l|] eqn:E; [|discriminate].
    destruct (forallb _ _) eqn:F; [|discriminate]. intros Q; inversion Q; subst. exists l. repeat split; auto.
    apply Forall_forall. intros t Ht. rewrite forallb_forall in F. specialize (F t Ht).
    destruct (t_type t); cbn in F; congruence.
  - (* Get *) unfold use_get_put. destruct (find_line w lid) as [l|] eqn:E; [|discriminate].
    intros Q; inversion Q as [Q1]. apply line_use_cb_res in Q1. exists l. split; [reflexivity|].
    fold (with_uses l (use_add (ln_uses l) name 1)) in Q1.
    destruct Q1 as [[H1 [H2 H3]]|[H1 _]]; [auto|].
    exfalso. cbn in H1. rewrite use_total_add in H1. pose proof (wf_pos w W l (proj1 (find_id_in _ _ _ E))). lia.
  - (* Put *) unfold use_get_put. destruct (find_line w lid) as [l|] eqn:E; [|discriminate].
    intros Q; inversion Q as [Q1]. apply line_use_cb_res in Q1. exists l. auto.
  - (* Config *) destruct (get_ts w lid n) as [[l t]|] eqn:G; [|discriminate]. apply get_ts_some in G; cbn in G; destruct G as [G1 G2].
    pose proof (config_rc t ty) as RC. destruct (e1inp_ts_config t ty) as [[rc t'] freed] eqn:C. cbn in RC. subst rc.
    rewrite (set_ts_eq _ _ _ _ _ G2). intros Q; inversion Q; subst.
    exists lid, n, l, t, t'. cbn. rewrite C. auto 8.
  - (* LinkCreate *) destruct (get_ts w lid n) as [[l t]|] eqn:G; [|discriminate]. apply get_ts_some in G; cbn in G; destruct G as [G1 G2].
    intros Q. exists l, t. split; [exact G1|]. split; [exact G2|].
    destruct (ts_link_create t (w_next_link w) ty tei sapi) as [t'|] eqn:T.
    + right. exists t'. split; [reflexivity|]. rewrite (set_ts_eq _ _ _ _ _ G2) in Q.
      match type of Q with (do r <- use_get_put ?w2 _ _ _; _) = _ => set (w2' := w2) in Q end.
      assert (L : ln_id (put_ts l n t') = lid) by (cbn; eapply find_self; eauto).
      assert (F : find_line w2' lid = Some (put_ts l n t')).
      { change (find_line w2' lid) with (find_line (set_line w (put_ts l n t')) lid).
        erewrite find_set_line; [|rewrite L; exact G1]. unfold updf. rewrite L, Nat.eqb_refl. reflexivity. }
      unfold use_get_put in Q. rewrite F in Q.
      destruct (line_use_cb w2' _) as [w3 o3] eqn:U in Q. cbn in Q. inversion Q; subst w' outs.
      apply line_use_cb_res in U. destruct U as [[U1 [U2 U3]]|[U1 _]].
      * subst w3 o3. split; [|reflexivity].
        pose proof (set_line_twice w (put_ts l n t') (with_uses (put_ts l n t') (use_add (ln_uses l) SIGN_LINK 1)) eq_refl) as ST.
        rewrite <- ST. reflexivity.
      * exfalso. cbn in U1. rewrite use_total_add in U1. pose proof (wf_pos w W l (proj1 (find_id_in _ _ _ G1))). lia.
    + left. inversion Q; subst. repeat split; auto. intros E. unfold ts_link_create in T. now rewrite E in T.
  - (* LinkDestroy *) destruct (locate w id) as [[lid n]|] eqn:Lc; [|discriminate].
    destruct (locate_some _ _ _ _ W Lc) as [l [t [G1 [G2 G3]]]].
    unfold get_ts. rewrite G1, G2. destruct (ts_link_destroy t id) as [[t' freed]|] eqn:D; [|discriminate].
    rewrite (set_ts_eq _ _ _ _ _ G2).
    assert (L : ln_id (put_ts l n t') = lid) by (cbn; eapply find_self; eauto).
    assert (F : find_line (set_line w (put_ts l n t')) lid = Some (put_ts l n t')).
    { erewrite find_set_line; [|rewrite L; exact G1]. unfold updf. rewrite L, Nat.eqb_refl. reflexivity. }
    unfold use_get_put. rewrite F.
    destruct (line_use_cb _ _) as [w3 o3] eqn:U. cbn. intros Q; inversion Q; subst w' outs.
    exists lid, n, l, t, t', freed, o3. repeat split; auto.
    apply line_use_cb_res in U. eapply use_res_after_set; [| | |exact U]; cbn; auto.
    intros x Hx Ex. eapply same_ctr; eauto. erewrite find_self; eauto.
  - (* Send *) destruct (locate w id) as [[lid n]|] eqn:Lc; [|discriminate].
    destruct (locate_some _ _ _ _ W Lc) as [l [t [G1 [G2 G3]]]].
    unfold get_ts. rewrite G1, G2, (set_ts_eq _ _ _ _ _ G2). intros Q; inversion Q; subst.
    exists lid, n, l, t, (ts_send t id m). cbn. auto 8.
  - intros Q; inversion Q; subst. auto.
  - (* SendQueue *) destruct (get_ts w lid n) as [[l t]|] eqn:G; [|discriminate]. apply get_ts_some in G; cbn in G; destruct G as [G1 G2].
    destruct (ts_send_queue t hdlc m) as [t'|] eqn:S; [|discriminate]. rewrite (set_ts_eq _ _ _ _ _ G2).
    intros Q; inversion Q; subst. exists lid, n, l, t, t'. cbn. auto 8.
  - (* WriteReady *) destruct (get_ts w lid n) as [[l t]|] eqn:G; [|discriminate]. apply get_ts_some in G; cbn in G; destruct G as [G1 G2].
    destruct (ts_write_ready t) as [[res t']|] eqn:S; [|discriminate]. rewrite (set_ts_eq _ _ _ _ _ G2).
    intros Q; inversion Q; subst. exists lid, n, l, t, t'. cbn. repeat split; auto. exists res. auto.
  - (* Timeout *) destruct (get_ts w lid n) as [[l t]|] eqn:G; [|discriminate]. apply get_ts_some in G; cbn in G; destruct G as [G1 G2].
    rewrite (set_ts_eq _ _ _ _ _ G2). intros Q; inversion Q; subst. exists lid, n, l, t, (ts_timeout t). cbn. auto 8.
  - (* Rx *) destruct (get_ts w lid n) as [[l t]|] eqn:G; [|discriminate]. apply get_ts_some in G; cbn in G; destruct G as [G1 G2].
    destruct (e1inp_rx_ts t has_cb m tei sapi) as [rc r] eqn:R. intros Q; inversion Q; subst. split; [reflexivity|].
    exists l, t. rewrite R. split; [exact G1|]. split; [exact G2|]. destruct r; reflexivity.
Qed.

(** ** preservation of well-formedness *)
Lemma in_set_line w l' x : In x (all_lines (set_line w l')) -> x = l' \/ (In x (all_lines w) /\ ln_id x <> ln_id l').
Proof.
  unfold set_line, map_lines, all_lines; cbn. rewrite <- map_app. intros H. apply in_map_iff in H.
  destruct H as [y [E H]]. destruct (Nat.eqb_spec (ln_id y) (ln_id l')); [left|right]; subst; auto.
Qed.
Lemma map_upd1_nums w l l' ls : WF w -> find_line w (ln_id l') = Some l -> ln_num l' = ln_num l ->
  (forall x, In x ls -> In x (all_lines w)) -> map ln_num (map (upd1 l') ls) = map ln_num ls.
Proof.
  intros W F N HI. rewrite map_map. apply map_ext_in. intros x Hx. unfold upd1.
  destruct (Nat.eqb_spec (ln_id x) (ln_id l')) as [E|E]; [|reflexivity].
  assert (Q : find_line w (ln_id l') = Some x) by (apply find_in; auto). congruence.
Qed.
Lemma WF_set_line w l l' : WF w -> find_line w (ln_id l') = Some l -> ln_num l' = ln_num l ->
  0 < use_total (ln_uses l') -> List.length (ln_ts l') = List.length (ln_ts l) -> WF (set_line w l').
Proof.
  intros W F N P L. pose proof F as F'. apply find_in in F'; auto. destruct F' as [F1 F2].
  constructor.
  - rewrite set_line_ids. apply W.
  - intros x Hx. apply in_set_line in Hx. destruct Hx as [E|[Hx _]]; [|now apply W]. subst. rewrite <- F2. now apply W.
  - change (w_lines (set_line w l')) with (map (upd1 l') (w_lines w)).
    rewrite (map_upd1_nums w l l'); auto. apply W. intros x Hx. apply in_or_app; auto.
  - intros x Hx. apply in_set_line in Hx. destruct Hx as [E|[Hx _]]; [now subst|now apply W].
  - intros x Hx. apply in_set_line in Hx. destruct Hx as [E|[Hx _]]; [|now apply W]. subst. rewrite L. now apply W.
Qed.
Lemma WF_with_nl w nl : WF w -> WF (with_nl w nl).
Proof. intros W; constructor; apply W. Qed.
Lemma NoDup_map_filter {A B} (f : A -> B) p ls : NoDup (map f ls) -> NoDup (map f (filter p ls)).
Proof.
  induction ls as [|a ls IH]; cbn; [auto|]. intros H; inversion H; subst.
  destruct (p a); cbn; [constructor|]; auto. intros I. apply H2. apply in_map_iff in I.
  destruct I as [y [E I]]. apply filter_In in I. apply in_map_iff. exists y. tauto.
Qed.
Lemma all_rem w l : all_lines (rem_line w l) = filter (keep (ln_id l)) (all_lines w).
Proof. unfold all_lines, rem_line; cbn. now rewrite filter_app. Qed.
Lemma in_rem w l x : In x (all_lines (rem_line w l)) <-> In x (all_lines w) /\ ln_id x <> ln_id l.
Proof.
  rewrite all_rem, filter_In. unfold keep. destruct (Nat.eqb_spec (ln_id x) (ln_id l)); cbn; intuition congruence.
Qed.
Lemma WF_rem w l : WF w -> WF (rem_line w l).
Proof.
  intros W. constructor.
  - rewrite all_rem. apply NoDup_map_filter. apply W.
  - intros x Hx. apply in_rem in Hx. cbn. now apply W.
  - cbn. apply NoDup_map_filter. apply W.
  - intros x Hx. apply in_rem in Hx. now apply W.
  - intros x Hx. apply in_rem in Hx. now apply W.
Qed.
Lemma NoDup_snoc {A} (l : list A) a : NoDup l -> ~ In a l -> NoDup (l ++ [a]).
Proof.
  intros N I. apply NoDup_rev in N. rewrite <- (rev_involutive (l ++ [a])). apply NoDup_rev.
  rewrite rev_app_distr. cbn. constructor; [|exact N]. now rewrite <- in_rev.
Qed.
Lemma line_find_none w num : e1inp_line_find w num = None <-> ~ In num (map ln_num (w_lines w)).
Proof.
  unfold e1inp_line_find. destruct (find _ (w_lines w)) as [l|] eqn:E; cbn.
  - apply find_some in E. destruct E as [E1 E2]. apply Z.eqb_eq in E2. split; [discriminate|].
    intros H. exfalso. apply H. subst. now apply in_map.
  - split; [|reflexivity]. intros _ H. apply in_map_iff in H. destruct H as [l [E1 E2]].
    pose proof (find_none _ _ E l E2) as Q. cbn in Q. apply Z.eqb_neq in Q. congruence.
Qed.
Lemma line_find_some w num lid : WF w -> (e1inp_line_find w num = Some lid <-> exists l, In l (w_lines w) /\ ln_num l = num /\ ln_id l = lid).
Proof.
  intros W. unfold e1inp_line_find. split.
  - destruct (find _ (w_lines w)) as [l|] eqn:E; [|discriminate]. cbn. intros Q; inversion Q; subst.
    apply find_some in E. destruct E as [E1 E2]. apply Z.eqb_eq in E2. eauto.
  - intros [l [H1 [H2 H3]]]. pose proof (wf_nums w W) as N. revert H1 N. induction (w_lines w) as [|a ls IH]; cbn; [contradiction|].
    intros [E|H1] N.
    + subst. now rewrite Z.eqb_refl.
    + inversion N as [|? ? N1 N2]; subst. destruct (Z.eqb_spec (ln_num a) (ln_num l)) as [E|E]; [|auto].
      exfalso. apply N1. rewrite E. now apply in_map.
Qed.
Lemma all_add_line w num x : In x (all_lines (add_line w num)) <-> x = new_line w num \/ In x (all_lines w).
Proof. unfold all_lines, add_line; cbn. rewrite !in_app_iff; cbn. intuition. Qed.
Lemma all_add_clone w l name x : In x (all_lines (add_clone w l name)) <-> x = new_clone w l name \/ In x (all_lines w).
Proof. unfold all_lines, add_clone; cbn. rewrite !in_app_iff; cbn. intuition. Qed.
Lemma fresh_id w : WF w -> ~ In (w_next w) (map ln_id (all_lines w)).
Proof. intros W H. apply in_map_iff in H. destruct H as [l [E H]]. pose proof (wf_next w W l H). lia. Qed.
Lemma WF_add_line w num : WF w -> e1inp_line_find w num = None -> WF (add_line w num).
Proof.
  intros W F. constructor.
  - unfold all_lines, add_line; cbn. rewrite <- app_assoc. cbn. rewrite map_app. cbn.
    pose proof (fresh_id w W) as FI. unfold all_lines in FI. rewrite map_app in FI.
    apply NoDup_Add with (a := w_next w) (l := map ln_id (w_lines w) ++ map ln_id (w_clones w)).
    + apply Add_app.
    + split; [rewrite <- map_app; apply W|exact FI].
  - intros x Hx. apply all_add_line in Hx. cbn. destruct Hx as [->|Hx]; [cbn; lia|]. pose proof (wf_next w W x Hx). lia.
  - cbn. rewrite map_app. cbn. apply NoDup_snoc; [apply W|]. now apply line_find_none.
  - intros x Hx. apply all_add_line in Hx. destruct Hx as [->|Hx]; [reflexivity|]. now apply W.
  - intros x Hx. apply all_add_line in Hx. destruct Hx as [->|Hx]; [reflexivity|]. now apply W.
Qed.
Lemma WF_add_clone w l name : WF w -> In l (all_lines w) -> WF (add_clone w l name).
Proof.
  intros W HI. constructor.
  - unfold all_lines, add_clone; cbn. rewrite app_assoc, map_app. cbn. apply NoDup_snoc; [apply W|]. now apply fresh_id.
  - intros x Hx. apply all_add_clone in Hx. cbn. destruct Hx as [->|Hx]; [cbn; lia|]. pose proof (wf_next w W x Hx). lia.
  - cbn. apply W.
  - intros x Hx. apply all_add_clone in Hx. destruct Hx as [->|Hx]; [reflexivity|]. now apply W.
  - intros x Hx. apply all_add_clone in Hx. destruct Hx as [->|Hx]; [cbn|]; now apply W.
Qed.
Lemma WF_use_res w l l' w' outs : WF w -> find_line w (ln_id l') = Some l -> ln_num l' = ln_num l ->
  List.length (ln_ts l') = List.length (ln_ts l) -> use_res w l' w' outs -> WF w'.
Proof.
  intros W F N L [[H1 [H2 H3]]|[H1 [H2 H3]]]; subst.
  - eapply WF_set_line; eauto.
  - now apply WF_rem.
Qed.
Lemma WF0 : WF world0.
Proof. constructor; cbn; try constructor; intros; contradiction. Qed.

Lemma WF_step w o w' outs : WF w -> shape w o w' outs -> WF w'.
Proof.
  intros W. destruct o; unfold shape.
  - intros [[-> _]|[_ [F [-> _]]]]; [auto|]. now apply WF_add_line.
  - intros [l [F [-> _]]]. apply WF_add_clone; auto. now apply find_id_in in F.
  - intros [l [F [-> _]]]. pose proof (find_self _ _ _ F) as S. pose proof (proj1 (find_id_in _ _ _ F)) as I.
    eapply WF_set_line with (l := l); cbn; auto; [now rewrite S|]. rewrite use_total_add. pose proof (wf_pos w W l I). lia.
  - intros [l [F U]]. pose proof (find_self _ _ _ F) as S. refine (WF_use_res w l (with_uses l (use_add (ln_uses l) name (-1))) w' outs W _ eq_refl eq_refl U). cbn. now rewrite S.
  - intros (lid' & n' & l & t & t' & F & G & _ & ->). pose proof (find_self _ _ _ F) as S. pose proof (proj1 (find_id_in _ _ _ F)) as I.
    eapply WF_set_line with (l := l); auto; [cbn; now rewrite S|exact (wf_pos w W l I)|]. eapply put_ts_len; eauto.
  - intros (l & t & F & G & [[_ [-> _]]|(t' & T & -> & _)]); [auto|]. apply WF_with_nl.
    pose proof (find_self _ _ _ F) as S. pose proof (proj1 (find_id_in _ _ _ F)) as I.
    eapply WF_set_line with (l := l); auto; [cbn; now rewrite S| |].
    + cbn. rewrite use_total_add. pose proof (wf_pos w W l I). lia.
    + change (ln_ts (with_uses (put_ts l n t') (use_add (ln_uses l) SIGN_LINK 1))) with (ln_ts (put_ts l n t')). eapply put_ts_len; eauto.
  - intros (lid & n & l & t & t' & fr & outs' & F & G & _ & _ & U & _).
    pose proof (find_self _ _ _ F) as S. refine (WF_use_res w l (with_uses (put_ts l n t') (use_add (ln_uses l) SIGN_LINK (-1))) w' outs' W _ eq_refl _ U); [cbn; now rewrite S|].
    change (List.length (ln_ts (put_ts l n t')) = List.length (ln_ts l)). eapply put_ts_len; eauto.
  - intros (lid' & n' & l & t & t' & F & G & _ & ->). pose proof (find_self _ _ _ F) as S. pose proof (proj1 (find_id_in _ _ _ F)) as I.
    eapply WF_set_line with (l := l); auto; [cbn; now rewrite S|exact (wf_pos w W l I)|]. eapply put_ts_len; eauto.
  - intros [-> _]; auto.
  - intros (lid' & n' & l & t & t' & F & G & _ & ->). pose proof (find_self _ _ _ F) as S. pose proof (proj1 (find_id_in _ _ _ F)) as I.
    eapply WF_set_line with (l := l); auto; [cbn; now rewrite S|exact (wf_pos w W l I)|]. eapply put_ts_len; eauto.
  - intros (lid' & n' & l & t & t' & F & G & _ & ->). pose proof (find_self _ _ _ F) as S. pose proof (proj1 (find_id_in _ _ _ F)) as I.
    eapply WF_set_line with (l := l); auto; [cbn; now rewrite S|exact (wf_pos w W l I)|]. eapply put_ts_len; eauto.
  - intros (lid' & n' & l & t & t' & F & G & _ & ->). pose proof (find_self _ _ _ F) as S. pose proof (proj1 (find_id_in _ _ _ F)) as I.
    eapply WF_set_line with (l := l); auto; [cbn; now rewrite S|exact (wf_pos w W l I)|]. eapply put_ts_len; eauto.
  - intros [-> _]; auto.
Qed.

(** ** the table of lines after a step *)
Lemma find_add_line w num x : WF w -> find_line (add_line w num) x = updf (find_line w) (w_next w) (Some (new_line w num)) x.
Proof.
  intros W. unfold updf, find_line, all_lines, add_line; cbn [w_lines w_clones]. 
  assert (X : forall a b c : list line, (forall y, In y a -> In y (all_lines w)) ->
    find (fun l => Nat.eqb (ln_id l) x) ((a ++ c) ++ b) = match find (fun l => Nat.eqb (ln_id l) x) a with Some y => Some y | None => find (fun l => Nat.eqb (ln_id l) x) (c ++ b) end).
  { intros a b c _. rewrite <- app_assoc. induction a as [|y a IH]; [reflexivity|]. cbn. destruct (Nat.eqb (ln_id y) x); auto. }
  rewrite X by (intros y Hy; apply in_or_app; auto). 
  assert (Y : find (fun l => Nat.eqb (ln_id l) x) (w_lines w ++ w_clones w) = match find (fun l => Nat.eqb (ln_id l) x) (w_lines w) with Some y => Some y | None => find (fun l => Nat.eqb (ln_id l) x) (w_clones w) end).
  { induction (w_lines w) as [|y a IH]; [reflexivity|]. cbn. destruct (Nat.eqb (ln_id y) x); auto. }
  rewrite Y. cbn [app find ln_id new_line].
  destruct (Nat.eqb_spec x (w_next w)) as [->|N].
  - rewrite Nat.eqb_refl. destruct (find _ (w_lines w)) as [y|] eqn:E; [|reflexivity].
    apply find_id_in in E. destruct E as [E1 E2]. assert (In y (all_lines w)) by (apply in_or_app; auto).
    pose proof (wf_next w W y H). lia.
  - destruct (Nat.eqb_spec (w_next w) x); [congruence|reflexivity].
Qed.
Lemma find_add_clone w l name x : WF w -> find_line (add_clone w l name) x = updf (find_line w) (w_next w) (Some (new_clone w l name)) x.
Proof.
  intros W. unfold updf. change (find_line (add_clone w l name) x) with (find (fun l => Nat.eqb (ln_id l) x) (w_lines w ++ (w_clones w ++ [new_clone w l name]))).
  rewrite app_assoc. fold (all_lines w).
  assert (X : forall a c : list line,
    find (fun l => Nat.eqb (ln_id l) x) (a ++ c) = match find (fun l => Nat.eqb (ln_id l) x) a with Some y => Some y | None => find (fun l => Nat.eqb (ln_id l) x) c end).
  { intros a c. induction a as [|y a IH]; [reflexivity|]. cbn. destruct (Nat.eqb (ln_id y) x); auto. }
  rewrite X. fold (find_line w x). cbn [find ln_id new_clone].
  destruct (Nat.eqb_spec x (w_next w)) as [->|N].
  - rewrite Nat.eqb_refl. rewrite find_fresh; auto.
  - destruct (Nat.eqb_spec (w_next w) x); [congruence|]. now destruct (find_line w x).
Qed.

(** the line replaced or removed by an operation on it *)
Definition lres (l' : line) : option line := if 0 <? use_total (ln_uses l') then Some l' else None.
Lemma find_use_res w l l' w' outs : find_line w (ln_id l') = Some l -> use_res w l' w' outs ->
  forall x, find_line w' x = updf (find_line w) (ln_id l') (lres l') x.
Proof.
  intros F [[H1 [H2 H3]]|[H1 [H2 H3]]] x; subst; unfold lres.
  - destruct (Z.ltb_spec 0 (use_total (ln_uses l'))); [|lia]. eapply find_set_line; eauto.
  - destruct (Z.ltb_spec 0 (use_total (ln_uses l'))); [lia|]. apply find_rem_line.
Qed.
Lemma find_nl w nl x : find_line (with_nl w nl) x = find_line w x.
Proof. reflexivity. Qed.

(** ** history invariant of the line table *)
Lemma refs_snoc h e lid : refs (h ++ [e]) lid = refs h lid + ref_delta lid e.
Proof. unfold refs. rewrite fold_right_app. cbn [fold_right]. induction h; cbn [fold_right]; lia. Qed.
Lemma family_snoc h e : family (h ++ [e]) = family_ev (family h) e.
Proof. unfold family. now rewrite fold_left_app. Qed.

Record LInv (w : world) (h : history) : Prop := {
  li_wf : WF w;
  li_refs : forall lid, refs h lid = match find_line w lid with Some l => use_total (ln_uses l) | None => 0 end;
  li_new : forall o lid, In (o, [Created lid]) h -> (lid < w_next w)%nat;
  li_cr : forall l, In l (w_lines w) -> created_as h (ln_num l) (ln_id l);
  li_cr2 : forall num lid l, created_as h num lid -> find_line w lid = Some l -> In l (w_lines w) /\ ln_num l = num;
  li_fam : forall l, In l (all_lines w) -> family h (ln_id l) = Some (ln_ctr l);
  li_flt : forall lid c, family h lid = Some c -> (lid < w_next w /\ c < w_next w)%nat;
  li_ctr : forall c, In c (w_ctrs w) <-> exists l, In l (all_lines w) /\ ln_ctr l = c }.

Lemma last_of_spec w l l' : WF w -> In l (all_lines w) -> ln_id l' = ln_id l -> ln_ctr l' = ln_ctr l ->
  (last_of w l' = true <-> forall x, In x (all_lines w) -> ln_ctr x = ln_ctr l -> ln_id x = ln_id l).
Proof.
  intros W HI E C. unfold last_of. rewrite C.
  assert (N : NoDup (filter (fun x => Nat.eqb (ln_ctr x) (ln_ctr l)) (all_lines w))).
  { apply NoDup_filter. eapply NoDup_map_inv. apply W. }
  assert (HF : In l (filter (fun x => Nat.eqb (ln_ctr x) (ln_ctr l)) (all_lines w))).
  { apply filter_In. split; auto. apply Nat.eqb_refl. }
  assert (M : forall x, In x (filter (fun x => Nat.eqb (ln_ctr x) (ln_ctr l)) (all_lines w)) <-> In x (all_lines w) /\ ln_ctr x = ln_ctr l).
  { intros x. rewrite filter_In, Nat.eqb_eq. tauto. }
  destruct (filter _ (all_lines w)) as [|a [|b r]] eqn:F; [contradiction| |].
  - cbn. split; [|auto]. intros _ x H1 H2. assert (X : In x [a]) by (apply M; auto). cbn in X, HF. 
    destruct X as [X|[]]. destruct HF as [Y|[]]. congruence.
  - cbn [List.length]. split; [cbn; discriminate|]. intros H. exfalso.
    assert (Ha : In a (all_lines w) /\ ln_ctr a = ln_ctr l) by (apply M; now left).
    assert (Hb : In b (all_lines w) /\ ln_ctr b = ln_ctr l) by (apply M; right; now left).
    assert (Q : ln_id a = ln_id b).
    { rewrite (H a), (H b); tauto. }
    assert (R : find_line w (ln_id b) = Some a) by (apply find_in; tauto).
    assert (R2 : find_line w (ln_id b) = Some b) by (apply find_in; tauto).
    inversion N as [|? ? N1 _]; subst. apply N1. left. congruence.
Qed.

Lemma LInv_upd w h l l' w0 nl outs0 e : LInv w h ->
  find_line w (ln_id l') = Some l -> ln_num l' = ln_num l -> ln_ctr l' = ln_ctr l -> List.length (ln_ts l') = List.length (ln_ts l) ->
  use_res w l' w0 outs0 ->
  (0 <= use_total (ln_uses l')) ->
  (forall x, ref_delta x e = if Nat.eqb x (ln_id l') then use_total (ln_uses l') - use_total (ln_uses l) else 0) ->
  (forall i, snd e <> [Created i]) ->
  LInv (with_nl w0 nl) (h ++ [e]).
Proof.
  intros I F N C L U P D NC. destruct I as [W R NW CR CR2 FA FL CT].
  pose proof (find_self _ _ _ F) as S. pose proof (proj1 (find_id_in _ _ _ F)) as HI.
  pose proof (WF_use_res _ _ _ _ _ W F N L U) as W'.
  assert (FE : family_ev (family h) e = family h).
  { destruct e as [o [|o1 [|o2 r]]]; destruct o; cbn; try reflexivity; destruct o1; try reflexivity; exfalso; eapply NC; reflexivity. }
  assert (CE : forall num lid, created_as (h ++ [e]) num lid <-> created_as h num lid).
  { intros num lid. unfold created_as. rewrite in_app_iff. cbn. split; [|auto]. intros [H|[H|[]]]; [exact H|].
    exfalso. apply (NC lid). subst e. reflexivity. }
  assert (NX : w_next w0 = w_next w) by (destruct U as [[_ [-> _]]|[_ [-> _]]]; reflexivity).
  assert (LN : forall x, In x (w_lines w0) -> exists y, In y (w_lines w) /\ ln_id x = ln_id y /\ ln_num x = ln_num y).
  { intros x Hx. destruct U as [[_ [-> _]]|[_ [-> _]]].
    - cbn in Hx. apply in_map_iff in Hx. destruct Hx as [y [Ey Hy]]. exists y. split; [exact Hy|]. 
      destruct (Nat.eqb_spec (ln_id y) (ln_id l')) as [Q|Q]; subst; [|auto].
      split; [auto|]. rewrite N. assert (find_line w (ln_id x) = Some y) by (apply find_in; auto; split; [apply in_or_app|]; auto). congruence.
    - cbn in Hx. apply filter_In in Hx. exists x. tauto. }
  assert (AL : forall x, In x (all_lines w0) -> x = l' \/ In x (all_lines w)).
  { intros x Hx. destruct U as [[_ [-> _]]|[_ [-> _]]].
    - apply in_set_line in Hx. tauto.
    - apply in_rem in Hx. tauto. }
  constructor.
  - now apply WF_with_nl.
  - intros x. rewrite refs_snoc, R, D, find_nl, (find_use_res _ _ _ _ _ F U). unfold updf, lres.
    destruct (Nat.eqb_spec x (ln_id l')) as [->|Q].
    + rewrite F. destruct (Z.ltb_spec 0 (use_total (ln_uses l'))); lia.
    + lia.
  - intros o lid H. cbn. rewrite NX. apply in_app_or in H. destruct H as [H|[H|[]]]; [eauto|].
    exfalso. apply (NC lid). rewrite H. reflexivity.
  - intros x Hx. apply CE. destruct (LN x Hx) as [y [Y1 [Y2 Y3]]]. rewrite Y2, Y3. auto.
  - intros num lid x Hc Hf. apply CE in Hc. rewrite find_nl, (find_use_res _ _ _ _ _ F U) in Hf. unfold updf, lres in Hf. cbn [w_lines with_nl].
    destruct (Nat.eqb_spec lid (ln_id l')) as [Q|Q].
    + subst lid. destruct (Z.ltb_spec 0 (use_total (ln_uses l'))) as [Z|Z]; [|discriminate]. inversion Hf; subst x.
      destruct (CR2 num _ _ Hc F) as [X1 X2]. split; [|congruence].
      destruct U as [[_ [-> _]]|[U1 _]]; [|lia]. cbn. apply in_map_iff. exists l. split; [|exact X1].
      now rewrite <- S, Nat.eqb_refl.
    + destruct (CR2 num _ _ Hc Hf) as [X1 X2]. split; [|exact X2]. pose proof (find_self _ _ _ Hf) as S2.
      destruct U as [[_ [-> _]]|[_ [-> _]]]; cbn.
      * apply in_map_iff. exists x. split; [|exact X1]. destruct (Nat.eqb_spec (ln_id x) (ln_id l')); congruence.
      * apply filter_In. split; [exact X1|]. unfold keep. destruct (Nat.eqb_spec (ln_id x) (ln_id l')); [congruence|reflexivity].
  - intros x Hx. rewrite family_snoc, FE. destruct (AL x Hx) as [->|Hx']; [|auto]. rewrite <- S, C. apply FA. exact HI.
  - intros lid c Hf. rewrite family_snoc, FE in Hf. cbn. rewrite NX. eauto.
  - intros c. destruct U as [[_ [-> _]]|[U1 [-> _]]].
    + cbn. rewrite CT. split; intros [x [X1 X2]].
      * destruct (Nat.eq_dec (ln_id x) (ln_id l')) as [Q|Q].
        -- exists l'. split. 
           ++ change (In l' (all_lines (set_line w l'))).
              apply find_id_in with (lid := ln_id l'). change (find_line (set_line w l') (ln_id l') = Some l').
              rewrite (find_set_line _ _ _ F). unfold updf. now rewrite Nat.eqb_refl.
           ++ rewrite C. assert (find_line w (ln_id l') = Some x) by (apply find_in; auto). congruence.
        -- exists x. split; [|exact X2]. change (In x (all_lines (set_line w l'))).
           unfold set_line, map_lines, all_lines; cbn. rewrite <- map_app. apply in_map_iff. exists x.
           split; [|exact X1]. destruct (Nat.eqb_spec (ln_id x) (ln_id l')); [congruence|reflexivity].
      * change (In x (all_lines (set_line w l'))) in X1. apply in_set_line in X1. destruct X1 as [->|[X1 _]]; [|eauto].
        exists l. split; congruence.
    + change (In c (w_ctrs (rem_line w l')) <-> exists x, In x (all_lines (rem_line w l')) /\ ln_ctr x = c).
      pose proof (last_of_spec w l l' W HI (eq_sym S) C) as LS. rewrite <- S in *.
      cbn [w_ctrs rem_line]. destruct (last_of w l') eqn:LO.
      * assert (LS' := proj1 LS eq_refl). rewrite filter_In, CT. split.
        -- intros [[x [X1 X2]] X3]. exists x. split; [|exact X2]. apply in_rem. split; [exact X1|].
           intros Q. destruct (Nat.eqb_spec c (ln_ctr l')) as [Q2|Q2]; [discriminate|]. apply Q2. rewrite <- X2, C.
           assert (FX : find_line w (ln_id x) = Some x) by (apply find_in; auto). congruence.
        -- intros [x [X1 X2]]. apply in_rem in X1. destruct X1 as [X1 X3]. split; [eauto|].
           destruct (Nat.eqb_spec c (ln_ctr l')) as [Q2|Q2]; [|reflexivity]. exfalso. apply X3. rewrite <- S. apply LS'; auto. congruence.
      * rewrite CT. split.
        -- intros [x [X1 X2]]. destruct (Nat.eq_dec (ln_id x) (ln_id l')) as [Q|Q].
           ++ (* another line of the family exists *)
              assert (X3 : ln_ctr x = ln_ctr l).
              { assert (find_line w (ln_id l') = Some x) by (apply find_in; auto). congruence. }
              destruct (existsb (fun y => Nat.eqb (ln_ctr y) (ln_ctr l) && negb (Nat.eqb (ln_id y) (ln_id l))) (all_lines w)) eqn:EX.
              ** apply existsb_exists in EX. destruct EX as [y [Y1 Y2]]. apply andb_true_iff in Y2. destruct Y2 as [Y2 Y3].
                 apply Nat.eqb_eq in Y2. destruct (Nat.eqb_spec (ln_id y) (ln_id l)) as [Q3|Q3]; [discriminate|].
                 exists y. split; [|congruence]. apply in_rem. split; [exact Y1|congruence].
              ** exfalso. apply (eq_true_false_abs false); [|reflexivity]. apply LS. intros y Y1 Y2.
                 destruct (Nat.eq_dec (ln_id y) (ln_id l)) as [Q4|Q4]; [exact Q4|]. exfalso.
                 assert (existsb (fun y => Nat.eqb (ln_ctr y) (ln_ctr l) && negb (Nat.eqb (ln_id y) (ln_id l))) (all_lines w) = true); [|congruence].
                 apply existsb_exists. exists y. split; [exact Y1|]. rewrite Y2, Nat.eqb_refl. cbn.
                 destruct (Nat.eqb_spec (ln_id y) (ln_id l)); [contradiction|reflexivity].
           ++ exists x. split; [|exact X2]. now apply in_rem.
        -- intros [x [X1 X2]]. apply in_rem in X1. exists x. tauto.
Qed.

Lemma with_nl_id w : with_nl w (w_next_link w) = w.
Proof. now destruct w. Qed.
Lemma created_snoc h o outs num lid : created_as (h ++ [(o, outs)]) num lid <->
  created_as h num lid \/ (o = Create num true /\ outs = [Created lid]).
Proof.
  unfold created_as. rewrite in_app_iff. cbn. split; (intros [H|H]; [left; exact H|right]).
  - destruct H as [H|[]]. inversion H; auto.
  - destruct H as [-> ->]. auto.
Qed.
Lemma LInv_neutral w h e : LInv w h -> (forall x, ref_delta x e = 0) -> (forall i, snd e <> [Created i]) -> LInv w (h ++ [e]).
Proof.
  intros [W R NW CR CR2 FA FL CT] D NC.
  assert (FE : family_ev (family h) e = family h).
  { destruct e as [o [|o1 [|o2 r]]]; destruct o; cbn; try reflexivity; destruct o1; try reflexivity; exfalso; eapply NC; reflexivity. }
  assert (CE : forall num lid, created_as (h ++ [e]) num lid <-> created_as h num lid).
  { intros num lid. destruct e as [o outs]. rewrite created_snoc. split; [|auto]. intros [H|[_ H]]; [exact H|].
    exfalso. apply (NC lid). exact H. }
  constructor; auto.
  - intros x. rewrite refs_snoc, R, D. lia.
  - intros o lid H. apply in_app_or in H. destruct H as [H|[H|[]]]; [eauto|]. exfalso. apply (NC lid). now rewrite H.
  - intros x Hx. apply CE. auto.
  - intros num lid l Hc Hf. apply CE in Hc. eauto.
  - intros l Hl. rewrite family_snoc, FE. auto.
  - intros lid c. rewrite family_snoc, FE. apply FL.
Qed.
Lemma LInv_add_line w h num : LInv w h -> e1inp_line_find w num = None ->
  LInv (add_line w num) (h ++ [(Create num true, [Created (w_next w)])]).
Proof.
  intros [W R NW CR CR2 FA FL CT] FN. constructor.
  - now apply WF_add_line.
  - intros x. rewrite refs_snoc, R, find_add_line by auto. unfold updf. cbn [ref_delta].
    rewrite (Nat.eqb_sym (w_next w) x). destruct (Nat.eqb_spec x (w_next w)) as [->|Q]; [|lia].
    rewrite find_fresh by auto. reflexivity.
  - intros o lid H. cbn. apply in_app_or in H. destruct H as [H|[H|[]]]; [apply NW in H; lia|]. inversion H; subst. lia.
  - intros x Hx. cbn in Hx. apply in_app_or in Hx. apply created_snoc. destruct Hx as [Hx|[<-|[]]]; [left; auto|right; auto].
  - intros num' lid l Hc Hf. rewrite find_add_line in Hf by auto. unfold updf in Hf. apply created_snoc in Hc. cbn [w_lines add_line].
    destruct Hc as [Hc|[H1 H2]].
    + destruct (Nat.eqb_spec lid (w_next w)) as [Q|Q].
      * subst. apply NW in Hc. lia.
      * destruct (CR2 _ _ _ Hc Hf). split; [apply in_or_app|]; auto.
    + inversion H1; subst num'. inversion H2; subst lid. rewrite Nat.eqb_refl in Hf. inversion Hf; subst l.
      split; [apply in_or_app; right; now left|reflexivity].
  - intros x Hx. rewrite family_snoc. cbn. apply all_add_line in Hx. destruct Hx as [->|Hx].
    + cbn. now rewrite Nat.eqb_refl.
    + destruct (Nat.eqb_spec (ln_id x) (w_next w)) as [Q|Q]; [|auto]. pose proof (wf_next w W x Hx). lia.
  - intros lid c. rewrite family_snoc. cbn. destruct (Nat.eqb_spec lid (w_next w)) as [Q|Q].
    + intros H; inversion H; subst. lia.
    + intros H. apply FL in H. lia.
  - intros c. cbn. rewrite CT. split.
    + intros [<-|[x [X1 X2]]]; [exists (new_line w num)|exists x]; (split; [apply all_add_line; auto|auto]).
    + intros [x [X1 X2]]. apply all_add_line in X1. destruct X1 as [->|X1]; [left|right]; eauto.
Qed.
Lemma LInv_add_clone w h l lid name : LInv w h -> find_line w lid = Some l ->
  LInv (add_clone w l name) (h ++ [(Clone lid name, [Created (w_next w)])]).
Proof.
  intros [W R NW CR CR2 FA FL CT] F. pose proof (find_id_in _ _ _ F) as [HI S]. constructor.
  - now apply WF_add_clone.
  - intros x. rewrite refs_snoc, R, find_add_clone by auto. unfold updf. cbn [ref_delta].
    rewrite (Nat.eqb_sym (w_next w) x). destruct (Nat.eqb_spec x (w_next w)) as [->|Q]; [|lia].
    rewrite find_fresh by auto. reflexivity.
  - intros o i H. cbn. apply in_app_or in H. destruct H as [H|[H|[]]]; [apply NW in H; lia|]. inversion H; subst. lia.
  - intros x Hx. cbn in Hx. apply created_snoc. left; auto.
  - intros num' i x Hc Hf. rewrite find_add_clone in Hf by auto. unfold updf in Hf. apply created_snoc in Hc. cbn [w_lines add_clone].
    destruct Hc as [Hc|[H1 H2]]; [|discriminate].
    destruct (Nat.eqb_spec i (w_next w)) as [Q|Q].
    + subst. apply NW in Hc. lia.
    + eauto.
  - intros x Hx. rewrite family_snoc. cbn. apply all_add_clone in Hx. destruct Hx as [->|Hx].
    + cbn. rewrite Nat.eqb_refl. rewrite <- S. auto.
    + destruct (Nat.eqb_spec (ln_id x) (w_next w)) as [Q|Q]; [|auto]. pose proof (wf_next w W x Hx). lia.
  - intros i c. rewrite family_snoc. cbn. destruct (Nat.eqb_spec i (w_next w)) as [Q|Q].
    + intros H. apply FL in H. lia.
    + intros H. apply FL in H. lia.
  - intros c. cbn. rewrite CT. split.
    + intros [x [X1 X2]]. exists x. split; [apply all_add_clone; auto|auto].
    + intros [x [X1 X2]]. apply all_add_clone in X1. destruct X1 as [->|X1]; [exists l|]; eauto.
Qed.
Lemma LInv0 : LInv world0 [].
Proof.
  constructor; try (intros; contradiction).
  - apply WF0.
  - reflexivity.
  - cbn. discriminate.
  - intros c. cbn. split; [contradiction|intros [l [[] _]]].
Qed.

Lemma ts_op_outs o lid n t t' outs : ts_op o lid n t t' outs ->
  (forall i, outs <> [Created i]) /\ (forall x, ref_delta x (o, outs) = 0) /\
  (forall i, ~ In (LineFreed i) outs /\ ~ In (CtrFreed i) outs /\ ~ In (LinkMade i) outs) /\
  (forall a b c, ~ In (LinkGone a b c) outs).
Proof.
  destruct o; cbn; try contradiction.
  - intros (_ & _ & _ & ->). repeat split; intros; try discriminate; cbn; intuition discriminate.
  - intros (_ & _ & ->). repeat split; intros; try discriminate; cbn; intuition discriminate.
  - intros (_ & _ & _ & ->). repeat split; intros; try discriminate; cbn; intuition discriminate.
  - intros (_ & _ & res & _ & ->). destruct res; repeat split; intros; try discriminate; cbn; intuition discriminate.
  - intros (_ & _ & _ & ->). repeat split; intros; try discriminate; cbn; intuition discriminate.
Qed.
Lemma LInv_ts w h o outs lid n l t t' : LInv w h -> find_line w lid = Some l -> get (ln_ts l) n = Some t ->
  ts_op o lid n t t' outs -> LInv (set_line w (put_ts l n t')) (h ++ [(o, outs)]).
Proof.
  intros I F G T. rewrite <- (with_nl_id (set_line w (put_ts l n t'))).
  destruct (ts_op_outs _ _ _ _ _ _ T) as [O1 [O2 _]].
  pose proof (find_self _ _ _ F) as S. pose proof (wf_pos w (li_wf _ _ I) l (proj1 (find_id_in _ _ _ F))) as P.
  refine (LInv_upd w h l (put_ts l n t') _ _ [] (o, outs) I _ eq_refl eq_refl _ _ _ _ O1).
  - cbn. now rewrite S.
  - eapply put_ts_len; eauto.
  - left. auto.
  - cbn. lia.
  - intros x. rewrite O2. change (ln_uses (put_ts l n t')) with (ln_uses l). destruct (Nat.eqb x _); lia.
Qed.
Lemma LInv_step w h o w' outs : LInv w h -> step w o = Some (w', outs) -> LInv w' (h ++ [(o, outs)]).
Proof.
  intros I ST. pose proof (li_wf _ _ I) as W. pose proof (step_shape _ _ _ _ W ST) as SH. clear ST.
  destruct o; unfold shape in SH.
  - destruct SH as [[-> [-> _]]|[-> [F [-> ->]]]].
    + apply LInv_neutral; auto; cbn; intros; discriminate.
    + now apply LInv_add_line.
  - destruct SH as (l & F & -> & -> & _). now apply LInv_add_clone.
  - destruct SH as (l & F & -> & ->). rewrite <- (with_nl_id (set_line _ _)).
    pose proof (find_self _ _ _ F) as S. pose proof (wf_pos w W l (proj1 (find_id_in _ _ _ F))) as P.
    refine (LInv_upd w h l (with_uses l (use_add (ln_uses l) name 1)) _ _ [] _ I _ eq_refl eq_refl eq_refl _ _ _ _).
    + cbn. now rewrite S.
    + left. repeat split; auto. cbn. rewrite use_total_add. lia.
    + cbn. rewrite use_total_add. lia.
    + intros x. cbn. rewrite use_total_add, (Nat.eqb_sym lid x), S. destruct (Nat.eqb x lid); lia.
    + discriminate.
  - destruct SH as (l & F & U). rewrite <- (with_nl_id w').
    pose proof (find_self _ _ _ F) as S. pose proof (wf_pos w W l (proj1 (find_id_in _ _ _ F))) as P.
    refine (LInv_upd w h l (with_uses l (use_add (ln_uses l) name (-1))) _ _ outs _ I _ eq_refl eq_refl eq_refl U _ _ _).
    + cbn. now rewrite S.
    + cbn. rewrite use_total_add. lia.
    + intros x. cbn. rewrite use_total_add, (Nat.eqb_sym lid x), S. destruct (Nat.eqb x lid); lia.
    + cbn. intros i Q. destruct U as [[_ [_ ->]]|[_ [_ ->]]]; [discriminate|]. unfold frees in Q. destruct (last_of _ _); discriminate.
  - destruct SH as (lid' & n' & l & t & t' & F & G & T & ->). eapply LInv_ts; eauto.
  - destruct SH as (l & t & F & G & [[_ [-> ->]]|(t' & T & -> & ->)]).
    + apply LInv_neutral; auto; cbn; intros; discriminate.
    + pose proof (find_self _ _ _ F) as S. pose proof (wf_pos w W l (proj1 (find_id_in _ _ _ F))) as P.
      refine (LInv_upd w h l (with_uses (put_ts l n t') (use_add (ln_uses l) SIGN_LINK 1)) _ _ [] _ I _ eq_refl eq_refl _ _ _ _ _).
      * cbn. now rewrite S.
      * change (List.length (ln_ts (put_ts l n t')) = List.length (ln_ts l)). eapply put_ts_len; eauto.
      * left. repeat split; auto. cbn. rewrite use_total_add. lia.
      * cbn. rewrite use_total_add. lia.
      * intros x. cbn. rewrite use_total_add, (Nat.eqb_sym lid x), S. destruct (Nat.eqb x lid); lia.
      * discriminate.
  - destruct SH as (lid & n & l & t & t' & fr & outs' & F & G & HH & D & U & ->). rewrite <- (with_nl_id w').
    pose proof (find_self _ _ _ F) as S. pose proof (wf_pos w W l (proj1 (find_id_in _ _ _ F))) as P.
    refine (LInv_upd w h l (with_uses (put_ts l n t') (use_add (ln_uses l) SIGN_LINK (-1))) _ _ outs' _ I _ eq_refl eq_refl _ U _ _ _).
    + cbn. now rewrite S.
    + change (List.length (ln_ts (put_ts l n t')) = List.length (ln_ts l)). eapply put_ts_len; eauto.
    + cbn. rewrite use_total_add. lia.
    + intros x. cbn. rewrite use_total_add, (Nat.eqb_sym lid x), S. destruct (Nat.eqb x lid); lia.
    + discriminate.
  - destruct SH as (lid' & n' & l & t & t' & F & G & T & ->). eapply LInv_ts; eauto.
  - destruct SH as [-> ->]. apply LInv_neutral; auto; cbn; intros; discriminate.
  - destruct SH as (lid' & n' & l & t & t' & F & G & T & ->). eapply LInv_ts; eauto.
  - destruct SH as (lid' & n' & l & t & t' & F & G & T & ->). eapply LInv_ts; eauto.
  - destruct SH as (lid' & n' & l & t & t' & F & G & T & ->). eapply LInv_ts; eauto.
  - destruct SH as [-> (l & t & F & G & ->)]. apply LInv_neutral; auto.
    intros i. cbn. destruct (e1inp_rx_ts t has_cb m tei sapi) as [rc []]; discriminate.
Qed.
Lemma LInv_run ops w h : run world0 ops = Some (w, h) -> LInv w h.
Proof. apply run_inv; [exact LInv0|exact LInv_step]. Qed.

Lemma use_res_frees w l l' w' outs : WF w -> find_line w (ln_id l') = Some l -> use_res w l' w' outs ->
  (forall lid, In (LineFreed lid) outs <-> find_line w lid <> None /\ find_line w' lid = None) /\
  (forall c, In (ln_ctr l') (w_ctrs w) -> (In (CtrFreed c) outs <-> In c (w_ctrs w) /\ ~ In c (w_ctrs w'))).
Proof.
  intros W F U. pose proof (find_use_res _ _ _ _ _ F U) as FU. split.
  - intros lid. rewrite FU. unfold updf, lres. destruct U as [[U1 [-> ->]]|[U1 [-> ->]]].
    + destruct (Z.ltb_spec 0 (use_total (ln_uses l'))); [|lia]. cbn. split; [contradiction|].
      intros [H1 H2]. destruct (Nat.eqb_spec lid (ln_id l')); [discriminate|congruence].
    + destruct (Z.ltb_spec 0 (use_total (ln_uses l'))); [lia|]. unfold frees. rewrite in_app_iff. split.
      * intros [H1|H1]; [destruct (last_of w l'); cbn in H1; intuition discriminate|].
        destruct H1 as [H1|[]]. inversion H1; subst. rewrite Nat.eqb_refl. split; [congruence|reflexivity].
      * intros [H1 H2]. right. left. destruct (Nat.eqb_spec lid (ln_id l')); [congruence|contradiction].
  - intros c HC. destruct U as [[U1 [-> ->]]|[U1 [-> ->]]].
    + cbn. split; [contradiction|tauto].
    + unfold frees, rem_line; cbn [w_ctrs]. rewrite in_app_iff. destruct (last_of w l').
      * rewrite filter_In. split.
        -- intros [[H1|[]]|[H1|[]]]; inversion H1; subst. rewrite Nat.eqb_refl. split; [exact HC|]. intros [_ X]; discriminate.
        -- intros [H1 H2]. left. left. destruct (Nat.eqb_spec c (ln_ctr l')); [congruence|].
           exfalso. apply H2. split; [exact H1|]. destruct (Nat.eqb_spec c (ln_ctr l')); [contradiction|reflexivity].
      * cbn. split; [intros [[]|[H|[]]]; discriminate|tauto].
Qed.
Lemma frees_step w h o w' outs : LInv w h -> step w o = Some (w', outs) ->
  (forall lid, In (LineFreed lid) outs <-> find_line w lid <> None /\ find_line w' lid = None) /\
  (forall c, In (CtrFreed c) outs <-> In c (w_ctrs w) /\ ~ In c (w_ctrs w')).
Proof.
  intros I ST. pose proof (li_wf _ _ I) as W. pose proof (step_shape _ _ _ _ W ST) as SH. clear ST.
  assert (CTR : forall lid l, find_line w lid = Some l -> In (ln_ctr l) (w_ctrs w)).
  { intros lid l F. apply (li_ctr _ _ I). exists l. split; [|reflexivity]. now apply find_id_in in F. }
  assert (SAME : forall out', (forall i, ~ In (LineFreed i) out' /\ ~ In (CtrFreed i) out') ->
    (forall lid, In (LineFreed lid) out' <-> find_line w lid <> None /\ find_line w lid = None) /\
    (forall c, In (CtrFreed c) out' <-> In c (w_ctrs w) /\ ~ In c (w_ctrs w))).
  { intros out' H. split; intros i; specialize (H i); tauto. }
  assert (TS : forall lid n l t t', find_line w lid = Some l -> get (ln_ts l) n = Some t -> ts_op o lid n t t' outs -> w' = set_line w (put_ts l n t') ->
    (forall lid, In (LineFreed lid) outs <-> find_line w lid <> None /\ find_line w' lid = None) /\
    (forall c, In (CtrFreed c) outs <-> In c (w_ctrs w) /\ ~ In c (w_ctrs w'))).
  { intros lid n l t t' F G T ->. destruct (ts_op_outs _ _ _ _ _ _ T) as [_ [_ [O _]]]. pose proof (find_self _ _ _ F) as S.
    split; intros i; pose proof (O i) as O'.
    - rewrite (find_set_line w l) by (cbn; congruence). unfold updf. destruct (Nat.eqb_spec i (ln_id (put_ts l n t'))) as [Q|Q]; [|tauto].
      split; [tauto|]. intros [_ X]; discriminate.
    - cbn. tauto. }
  destruct o; unfold shape in SH.
  - destruct SH as [[-> [-> _]]|[-> [F [-> ->]]]].
    + apply SAME. cbn. intuition discriminate.
    + split; intros i.
      * rewrite find_add_line by auto. unfold updf. cbn. split; [intuition discriminate|]. intros [H1 H2].
        destruct (Nat.eqb i (w_next w)); [discriminate|congruence].
      * cbn. split; [intuition discriminate|]. tauto.
  - destruct SH as (l & F & -> & -> & _). split; intros i.
    + rewrite find_add_clone by auto. unfold updf. cbn. split; [intuition discriminate|]. intros [H1 H2].
      destruct (Nat.eqb i (w_next w)); [discriminate|congruence].
    + cbn. split; [intuition discriminate|]. tauto.
  - destruct SH as (l & F & -> & ->). pose proof (find_self _ _ _ F) as S. split; intros i.
    + rewrite (find_set_line w l) by (cbn; congruence). unfold updf. destruct (Nat.eqb_spec i (ln_id (with_uses l (use_add (ln_uses l) name 1)))) as [Q|Q]; cbn.
      * split; [contradiction|]. intros [_ X]; discriminate.
      * tauto.
    + cbn. tauto.
  - destruct SH as (l & F & U). pose proof (find_self _ _ _ F) as S.
    destruct (use_res_frees w l (with_uses l (use_add (ln_uses l) name (-1))) w' outs W (eq_trans (f_equal (find_line w) S) F) U) as [X1 X2]. split; [exact X1|].
    intros c. apply X2. cbn. eauto.
  - destruct SH as (lid' & n' & l & t & t' & F & G & T & E). eapply TS; eauto.
  - destruct SH as (l & t & F & G & [[_ [-> ->]]|(t' & T & -> & ->)]).
    + apply SAME. cbn. intuition discriminate.
    + pose proof (find_self _ _ _ F) as S. split; intros i.
      * rewrite find_nl, (find_set_line w l) by (cbn; congruence). unfold updf. destruct (Nat.eqb i _).
        -- cbn. split; [intuition discriminate|]. intros [_ X]; discriminate.
        -- cbn. split; [intuition discriminate|]. tauto.
      * cbn. split; [intuition discriminate|]. tauto.
  - destruct SH as (lid & n & l & t & t' & fr & outs' & F & G & HH & D & U & ->). pose proof (find_self _ _ _ F) as S.
    destruct (use_res_frees w l (with_uses (put_ts l n t') (use_add (ln_uses l) SIGN_LINK (-1))) w' outs' W (eq_trans (f_equal (find_line w) S) F) U) as [X1 X2]. split.
    + intros i. rewrite <- X1. cbn. split; [intros [Q|Q]; [discriminate|exact Q]|auto].
    + intros c. rewrite <- X2 by (cbn; eauto). cbn. split; [intros [Q|Q]; [discriminate|exact Q]|auto].
  - destruct SH as (lid' & n' & l & t & t' & F & G & T & E). eapply TS; eauto.
  - destruct SH as [-> ->]. apply SAME. cbn. intuition discriminate.
  - destruct SH as (lid' & n' & l & t & t' & F & G & T & E). eapply TS; eauto.
  - destruct SH as (lid' & n' & l & t & t' & F & G & T & E). eapply TS; eauto.
  - destruct SH as (lid' & n' & l & t & t' & F & G & T & E). eapply TS; eauto.
  - destruct SH as [-> (l & t & F & G & ->)]. apply SAME. intros i.
    destruct (e1inp_rx_ts t has_cb m tei sapi) as [rc []]; cbn; intuition discriminate.
Qed.
Lemma alive_refs w h lid : LInv w h -> (find_line w lid <> None <-> 0 < refs h lid).
Proof.
  intros I. rewrite (li_refs _ _ I). destruct (find_line w lid) as [l|] eqn:F.
  - pose proof (wf_pos w (li_wf _ _ I) l (proj1 (find_id_in _ _ _ F))). split; [lia|congruence].
  - split; [congruence|lia].
Qed.
