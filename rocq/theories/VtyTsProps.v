(** C68: every line has 32 timeslots, numbered 0 to 31, whatever was typed and configured. *)
From Coq Require Import List Arith Lia Bool ZArith Ascii String.
From Verif Require Import Base VtyModel VtyProofs VtyProps.
Import ListNotations.
Open Scope string_scope.
Open Scope Z_scope.

Definition T32 (s : st) : Prop := Forall (fun l => List.length (l_ts l) = 32%nat) (lines s).
Lemma t_upd s n f : T32 s -> (forall l, List.length (l_ts l) = 32%nat -> List.length (l_ts (f l)) = 32%nat) -> Forall (fun l => List.length (l_ts l) = 32%nat) (upd n f (lines s)).
Proof. intros T F. apply upd_forall; [exact T|]. intros l _. apply F. Qed.
Lemma t_set s0 s n f s' b : T32 s -> lines s0 = lines s -> (forall l, List.length (l_ts l) = 32%nat -> List.length (l_ts (f l)) = 32%nat) ->
  set n s0 f = Done s' b -> T32 s'.
Proof. intros T L F H. unfold set in H. injection H as <- _. unfold T32. cbn. rewrite L. now apply t_upd. Qed.
Lemma t_exec e k s c s' b : T32 s -> exec e k s c = Done s' b -> T32 s'.
Proof.
  intros T H. destruct c; cbn [exec] in H; unfold on, warn in H.
  - destruct (find_line n s); [injection H as <- _; easy|]. destruct (drv e d); [|injection H as <- _; easy].
    destruct (k_create k (tick s)); injection H as <- _; [|easy]. unfold T32. cbn. apply Forall_app. split; [exact T|]. constructor; [reflexivity|constructor].
  - destruct (find_line n s); [|injection H as <- _; easy]. eapply t_set; [exact T| |  |exact H]; easy.
  - destruct (Nat.ltb _ _); [injection H as <- _; easy|]. destruct (find_line n s); [|injection H as <- _; easy]. eapply t_set; [exact T| |  |exact H]; easy.
  - destruct (find_line n s); [|injection H as <- _; easy]. destruct (_ && _); [injection H as <- _; easy|]. eapply t_set; [exact T| |  |exact H]; easy.
  - destruct (find_line n s); [|injection H as <- _; easy]. destruct (negb _); [injection H as <- _; easy|]. eapply t_set; [exact T| |  |exact H]; easy.
  - destruct (find_line n s); [|injection H as <- _; easy]. eapply t_set; [exact T| |  |exact H]; easy.
  - destruct (find_line n s); [|injection H as <- _; easy]. eapply t_set; [exact T| |  |exact H]; easy.
  - destruct (find_line n s); [|injection H as <- _; easy]. destruct (negb _); [injection H as <- _; easy|]. cbv zeta in H. destruct (negb _); [injection H as <- _; easy|].
    eapply t_set; [exact T| |  |exact H]; easy.
  - destruct (find_line n s); [|discriminate H]. eapply t_set; [exact T| |  |exact H]; easy.
  - injection H as <- _. exact T.
  - destruct oml; injection H as <- _; exact T.
  - destruct oml; injection H as <- _; exact T.
Qed.
Lemma set_nth_len i x l : List.length (set_nth i x l) = List.length l.
Proof. revert i. induction l as [|y l IH]; intros [|i]; cbn; [easy..|now rewrite IH]. Qed.
Lemma t_step e k s v s' b : T32 s -> step e k s v = Done s' b -> T32 s'.
Proof.
  intros T H. destruct v as [t|n d|n i ty]; cbn [step] in H.
  - unfold vty in H. destruct (parse e (words t)); [now apply t_exec in H|]. unfold warn in H. now injection H as <- _.
  - now apply t_exec in H.
  - unfold on, warn in H. destruct (find_line n s); [|injection H as <- _; easy]. eapply t_set; [exact T|reflexivity| |exact H]. intros x L. cbn. now rewrite set_nth_len.
Qed.
Lemma t_run e k vs : forall s s', T32 s -> run e k s vs = Some s' -> T32 s'.
Proof. induction vs as [|v r IH]; intros s s' T H; cbn [run] in H; [now injection H as <-|]. destruct (step e k s v) as [s1 b|] eqn:Q; [|discriminate H]. apply (IH s1 s'); [|easy]. now apply (t_step e k s v s1 b). Qed.

(** "show e1_timeslot n i" succeeds exactly if line n exists and i is 0 to 31; what it and "show
    e1_timeslot n" show is numbered 0 to 31 *)
Theorem C68_timeslots e k vs s : run e k st_init vs = Some s ->
  (forall n i, snd (show_ts (Some n) (Some i) s) = true <-> find_line n s <> None /\ (i <= 31)%nat) /\
  (forall n i j m ty, In (j, m, ty) (fst (show_ts n i s)) -> (j <= 31)%nat).
Proof.
  intros R. apply t_run in R; [|constructor]. unfold T32 in R. rewrite Forall_forall in R. split.
  - intros n i. destruct (C68_show s (Some n) (Some i)) as (_ & _ & H). destruct (snd (show_ts (Some n) (Some i) s)) eqn:Q.
    + split; [|easy]. intros _. split.
      * intros F. assert (X : true = false) by (apply H; exists n; split; [reflexivity|now left]). discriminate X.
      * destruct (find_line n s) as [l|] eqn:F; [|exfalso; assert (X : true = false) by (apply H; exists n; split; [reflexivity|now left]); discriminate X].
        destruct (Nat.le_gt_cases i 31) as [L|L]; [easy|]. exfalso. assert (X : true = false); [|discriminate X]. apply H. exists n. split; [reflexivity|]. right. exists l, i. split; [easy|]. split; [easy|].
        unfold find_line in F. apply find_some in F as [F _]. rewrite (R l F). lia.
    + split; [discriminate|]. intros [F L]. exfalso. destruct (proj1 H eq_refl) as (m & E & [G|(l & j & G & I & K)]).
      * injection E as <-. now apply F.
      * injection E as <-. injection I as <-. unfold find_line in G. apply find_some in G as [G _]. rewrite (R l G) in K. lia.
  - intros n i j m ty I. destruct (C68_show s n i) as (H & _). destruct (H j m ty I) as (l & A & _ & B & _). specialize (R l A).
    assert (j < List.length (l_ts l))%nat by (apply nth_error_Some; congruence). lia.
Qed.
Example C68_timeslots_ex : exists s, run (mkE (fun _ => Some true) (fun _ => true)) (mkK (fun _ => true) (fun _ => true) (fun _ => true)) st_init [Create 0 "dahdi"; Config 0 31 2%nat] = Some s /\ show_ts (Some 0) None s = ([(31%nat, 0, 2%nat)], true).
Proof. eexists. split; [reflexivity|]. reflexivity. Qed.
