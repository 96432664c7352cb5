(** C87: changing the patterns from within the frame callback of the TRAU
    synchroniser. *)
From Coq Require Import List Arith Lia Bool ZArith.
From Verif Require Import Base RtpSpec SyncModel SyncSpec SyncProofs SyncProps SyncHealSpec SyncHealProofs SyncReModel SyncReSpec SyncReProofs.
Import ListNotations.
Opaque HIST.

(** Whatever the callback asks for and whenever, whatever arrives in whatever
    portions, and whatever the user does between deliveries: no access leaves a
    buffer, no assertion fires, and every frame has the length of the pattern in
    force at that moment. *)
Theorem C87_callback_safe : forall junk cb i ops, policy_ok cb -> Forall uop_ok ops ->
  exists t s, do_uops junk cb [] (osmo_trau_sync_alloc i) ops = Some (t, s) /\ lengths_ok (i, []) t.
Proof.
  intros junk cb i ops PO OK.
  destruct (uops_ok junk cb (i, []) PO ops [] _ OK (alloc_G junk i)) as (t & s & E & _ & L & _).
  exists t, s. split; [exact E|]. now apply L.
Qed.

(** With a callback that asks for nothing this is the synchroniser of C28-C30. *)
Theorem C87_quiet_callback : forall junk cb i ops t s l, policy_ok cb -> Forall uop_ok ops ->
  do_uops junk cb [] (osmo_trau_sync_alloc i) ops = Some (t, s) -> quiet cb t ->
  rx_ubits_re junk cb t s l = do (s', o) <- osmo_trau_sync_rx_ubits junk s l; Some (t ++ map EOut o, s').
Proof.
  intros junk cb i ops t s l PO OK E Q.
  destruct (uops_ok junk cb (i, []) PO ops [] _ OK (alloc_G junk i)) as (t' & s' & E' & Gs & _).
  assert (t' = t /\ s' = s) as (-> & ->) by (split; congruence).
  exact (rx_quiet junk cb (i, []) PO (length l) t s l (le_n _) Q Gs).
Qed.

(** A callback that changes patterns only on a loss or on the first frame after a
    search sees the same whatever way the bits are cut into deliveries. *)
Theorem C87_prompt_chunking : forall junk cb i ops t s a b, policy_ok cb -> prompt cb -> Forall uop_ok ops ->
  do_uops junk cb [] (osmo_trau_sync_alloc i) ops = Some (t, s) ->
  do_uops junk cb t s [URx (a ++ b)] = do_uops junk cb t s [URx a; URx b].
Proof.
  intros junk cb i ops t s a b PO PR OK E.
  destruct (uops_ok junk cb (i, []) PO ops [] _ OK (alloc_G junk i)) as (t' & s' & E' & Gs & _ & _ & SE).
  assert (t' = t /\ s' = s) as (-> & ->) by (split; congruence).
  cbn [do_uops do_uop]. unfold rx_ubits_re.
  rewrite (rx_split junk cb (i, []) PO PR (length (a ++ b)) a b (length (a ++ b)) (length a) (length b) t s); try lia; [|exact Gs|].
  - destruct (rx_re (length a) junk cb (is_aligned s) t s a) as [[t1 s1]|]; [|reflexivity].
    destruct (rx_re (length b) junk cb (is_aligned s1) t1 s1 b) as [[t2 s2]|]; reflexivity.
  - apply SE; [exact PR|]. split; [reflexivity|]. intros _. exact searching_nil.
Qed.

(** Any other callback does not: a change asked for on a later frame takes effect
    only with the next delivery.  The rest of the present one is cut into frames
    of the new length without any search for the new pattern. *)
Definition late : policy := fun t =>
  match t with [EOut (Frame _); EOut (Frame _)] => [(PAT_FA, [])] | _ => [] end.
Theorem C87_refuted_late_change :
  policy_ok late /\ let g := v110_good in let x := repeat true 128 in
  (exists s, do_uops (fun _ _ => true) late [] (osmo_trau_sync_alloc PAT_V110) [URx (g ++ g ++ x)] =
     Some ([EOut (Frame g); EOut (Frame g); ESet (PAT_FA, []); EOut (Frame (repeat true 64)); EOut (Frame (repeat true 64))], s)) /\
  (exists s, do_uops (fun _ _ => true) late [] (osmo_trau_sync_alloc PAT_V110) [URx (g ++ g); URx x] =
     Some ([EOut (Frame g); EOut (Frame g); ESet (PAT_FA, [])], s)) /\
  ~ matches (sync_patterns PAT_FA) (repeat true 64).
Proof.
  split.
  { intros t. unfold late. destruct t as [|[[]|] [|[[]|] [|]]]; repeat constructor. }
  cbv zeta. split; [eexists; vm_compute; reflexivity|]. split; [eexists; vm_compute; reflexivity|].
  intros M. specialize (M 0 false). vm_compute in M. specialize (M eq_refl eq_refl). discriminate M.
Qed.

(** But the confusion ends with that delivery: whatever the callback did in the
    past, once it leaves the patterns alone the next delivery of clean frames of
    the pattern last chosen is delivered from the sixth frame on at the latest. *)
Theorem C87_resync : forall junk cb i ops t s fs t' s', policy_ok cb -> Forall uop_ok ops ->
  do_uops junk cb [] (osmo_trau_sync_alloc i) ops = Some (t, s) -> quiet cb t ->
  let c := setting (i, []) t in frame_len (fst c) <= 640 -> harmless junk (fst c) ->
  clean (fst c) (slots (fst c) (snd c)) fs ->
  do_uops junk cb t s [URx (concat fs)] = Some (t', s') ->
  exists before, t' = t ++ map EOut (before ++ map Frame (skipn 5 fs)).
Proof.
  intros junk cb i ops t s fs t' s' PO OK E Q c HF HH (CF & CW) R.
  destruct (uops_ok junk cb (i, []) PO ops [] _ OK (alloc_G junk i)) as (t0 & s0 & E0 & Gs & _).
  assert (t0 = t /\ s0 = s) as (-> & ->) by (split; congruence).
  cbn [do_uops do_uop] in R. unfold rx_ubits_re in R. rewrite (rx_quiet junk cb (i, []) PO _ t s _ (le_n _) Q Gs) in R.
  fold c in Gs. destruct Gs as (I & T & P & _).
  change (rx_bits (length (concat fs)) junk s (concat fs)) with (osmo_trau_sync_rx_ubits junk s (concat fs)) in R.
  rewrite (rx_eq junk _ s _ I) in R.
  destruct (bits_tail junk _ (concat fs) s I T) as (s2 & o2 & E2 & _ & _ & _ & S). rewrite E2 in R.
  assert (t' = t ++ map EOut o2) as -> by congruence. rewrite P in S.
  pose proof (good_pat (fst c)) as (_ & G2 & _).
  assert (PI : In (Some (sync_patterns (fst c))) (slots (fst c) (snd c))).
  { pose proof I as (_ & _ & _ & _ & H0 & _). rewrite P in H0. now apply nth_error_In in H0. }
  destruct (heal junk (slots (fst c) (snd c)) (sync_patterns (fst c)) G2) with (fs := fs) (v := view_of (sync_patterns (fst c)) s) (n := s_aligns s) (o := o2) (v' := view_of (sync_patterns (fst c)) s2) (n' := s_aligns s2) as (before & -> & _).
  - rewrite HIST_v, len_frame. lia.
  - exact PI.
  - intros n l Hl. rewrite len_frame in Hl |- *. now apply HH.
  - eapply Forall_impl; [|exact CF]. cbn. intros f [X Y]. split; [now rewrite len_frame|exact Y].
  - rewrite len_frame. exact CW.
  - now apply view_inv.
  - exact S.
  - now exists before.
Qed.

(** a prompt callback: it tries V.110 on the first 16k frame *)
Definition ask_v110 : policy := fun t => match t with [EOut (Frame _)] => [(PAT_V110, [(PAT_V110, 3)])] | _ => [] end.
Definition g16 : bits := bits_of_octets ([0; 0; 128; 0] ++ flat_map (fun _ => [128; 0]) (seq 0 18))%Z.
Example C87_example : policy_ok ask_v110 /\ prompt ask_v110 /\
  exists s, do_uops (fun _ _ => true) ask_v110 [] (osmo_trau_sync_alloc PAT_16_FR_EFR) [URx (repeat true 5 ++ g16 ++ repeat true 3 ++ v110_good ++ v110_good)] =
    Some ([EOut (Frame g16); ESet (PAT_V110, [(PAT_V110, 3)]); EOut (Frame v110_good); EOut (Frame v110_good)], s).
Proof.
  split. { intros t. unfold ask_v110. destruct t as [|[[]|] [|]]; repeat constructor. }
  split.
  { intros t o. unfold ask_v110. destruct t as [|x t]; [right; exact Logic.I|]. intros H. exfalso. apply H.
    destruct x as [[]|]; [|reflexivity|reflexivity]. destruct t; reflexivity. }
  eexists. vm_compute. reflexivity.
Qed.
Print Assumptions C87_callback_safe.
Print Assumptions C87_prompt_chunking.
Print Assumptions C87_resync.
