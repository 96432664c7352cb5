(** Cyclic codes by shift register: what a register with feedback [p] does not notice. *)
From Coq Require Import List Arith Lia Bool.
From Verif Require Import CrcSpec.
Import ListNotations.

Lemma xor_length a : forall b, length a = length b -> length (xor a b) = length a.
Proof. induction a as [|x a IH]; intros [|y b] H; try discriminate; [reflexivity|]. cbn [xor length] in *. rewrite IH by lia. reflexivity. Qed.
Lemma xor_comm a : forall b, xor a b = xor b a.
Proof. induction a as [|x a IH]; intros [|y b]; try reflexivity. cbn [xor]. now rewrite IH, xorb_comm. Qed.
Lemma xor_assoc a : forall b c, xor (xor a b) c = xor a (xor b c).
Proof. induction a as [|x a IH]; intros [|y b] [|z c]; try reflexivity. cbn [xor]. now rewrite IH, xorb_assoc. Qed.
Lemma xor_self a : xor a a = repeat false (length a).
Proof. induction a as [|x a IH]; [reflexivity|]. cbn [xor length repeat]. now rewrite IH, xorb_nilpotent. Qed.
Lemma xor_zero a n : length a = n -> xor a (repeat false n) = a.
Proof. intros <-. induction a as [|x a IH]; [reflexivity|]. cbn [xor length repeat]. now rewrite IH, xorb_false_r. Qed.
Lemma zero_xor a n : length a = n -> xor (repeat false n) a = a.
Proof. intros H. rewrite xor_comm. now apply xor_zero. Qed.
Lemma xor_app a : forall a' b b', length a = length a' -> xor (a ++ b) (a' ++ b') = xor a a' ++ xor b b'.
Proof. induction a as [|x a IH]; intros [|y a'] b b' H; try discriminate; [reflexivity|]. cbn [app xor]. now rewrite IH by (cbn in H; lia). Qed.
Lemma xor_cancel a b n : length a = n -> length b = n -> xor a b = repeat false n -> a = b.
Proof.
  intros <-. revert b. induction a as [|x a IH]; intros [|y b] L H; try discriminate; [reflexivity|].
  cbn [xor length repeat] in H. injection H as H1 H2. f_equal; [now apply xorb_eq|]. apply IH; [cbn in L; lia|exact H2].
Qed.
Lemma xor4 a b c d : xor (xor a b) (xor c d) = xor (xor a c) (xor b d).
Proof. rewrite !xor_assoc. f_equal. rewrite <- !xor_assoc. f_equal. apply xor_comm. Qed.
Lemma repeat_snoc {A} (x : A) n : repeat x n ++ [x] = repeat x (S n).
Proof. induction n as [|n IH]; [reflexivity|]. cbn [repeat app]. now rewrite IH. Qed.

Section Register.
Variable p : bits.
Definition step (r : bits) (b : bool) : bits :=
  match r with [] => [] | t :: r' => if xorb t b then xor (r' ++ [false]) p else r' ++ [false] end.
Definition run (e r : bits) : bits := fold_left step e r.
Definition zeros := repeat false (length p).

Lemma step_length r b : length r = length p -> length (step r b) = length p.
Proof.
  intros H. destruct r as [|t r]; [exact H|]. cbn [step]. cbn [length] in H.
  destruct (xorb t b); [rewrite xor_length|]; rewrite app_length; cbn [length]; lia.
Qed.
Lemma run_length e : forall r, length r = length p -> length (run e r) = length p.
Proof. induction e as [|b e IH]; intros r H; [exact H|]. cbn [run fold_left]. apply IH. now apply step_length. Qed.
Lemma run_app e1 e2 r : run (e1 ++ e2) r = run e2 (run e1 r).
Proof. apply fold_left_app. Qed.

Lemma step_linear r1 r2 b1 b2 : length r1 = length p -> length r2 = length p ->
  step (xor r1 r2) (xorb b1 b2) = xor (step r1 b1) (step r2 b2).
Proof.
  intros H1 H2. destruct r1 as [|t1 r1], r2 as [|t2 r2]; cbn [length] in H1, H2; try (exfalso; lia); [reflexivity|].
  cbn [xor step].
  assert (E : xorb (xorb t1 t2) (xorb b1 b2) = xorb (xorb t1 b1) (xorb t2 b2)) by (destruct t1, t2, b1, b2; reflexivity).
  rewrite E.
  assert (S : xor r1 r2 ++ [false] = xor (r1 ++ [false]) (r2 ++ [false])) by (rewrite xor_app by lia; reflexivity).
  rewrite S. set (a := r1 ++ [false]). set (c := r2 ++ [false]).
  assert (La : length a = length p) by (unfold a; rewrite app_length; cbn; lia).
  assert (Lc : length c = length p) by (unfold c; rewrite app_length; cbn; lia).
  destruct (xorb t1 b1), (xorb t2 b2); cbn [xorb].
  - rewrite xor4, xor_self, xor_zero; [reflexivity|]. rewrite xor_length; congruence.
  - rewrite !xor_assoc. f_equal. apply xor_comm.
  - apply xor_assoc.
  - reflexivity.
Qed.
Lemma run_linear e1 : forall e2 r1 r2, length e1 = length e2 -> length r1 = length p -> length r2 = length p ->
  run (xor e1 e2) (xor r1 r2) = xor (run e1 r1) (run e2 r2).
Proof.
  induction e1 as [|b1 e1 IH]; intros [|b2 e2] r1 r2 L H1 H2; try discriminate; [reflexivity|].
  cbn [xor run fold_left]. rewrite step_linear by assumption. apply IH; [cbn in L; lia|now apply step_length|now apply step_length].
Qed.
Lemma step_zeros : step zeros false = zeros.
Proof.
  unfold zeros. destruct (length p) as [|n] eqn:H; [reflexivity|]. cbn [repeat step xorb]. apply repeat_snoc.
Qed.
Lemma run_zeros n : run (repeat false n) zeros = zeros.
Proof. induction n as [|n IH]; [reflexivity|]. cbn [repeat run fold_left]. rewrite step_zeros. exact IH. Qed.
(** feeding a register its own contents empties it *)
Lemma run_self_gen r : forall z, length (r ++ repeat false z) = length p -> run r (r ++ repeat false z) = zeros.
Proof.
  induction r as [|t r IH]; intros z L.
  - cbn [run fold_left app] in *. rewrite repeat_length in L. unfold zeros. now rewrite L.
  - cbn [run fold_left app step]. rewrite xorb_nilpotent.
    change (t :: r ++ repeat false z) with ((t :: r) ++ repeat false z) in L.
    rewrite <- app_assoc, repeat_snoc. apply IH. rewrite app_length, repeat_length in *. cbn [length] in L. lia.
Qed.
Lemma run_self r : length r = length p -> run r r = zeros.
Proof. intros H. pose proof (run_self_gen r 0) as X. cbn [repeat] in X. rewrite app_nil_r in X. now apply X. Qed.

(** the last coefficient of the polynomial is 1 *)
Hypothesis p_last : last p false = true.
Lemma p_ne : p <> [].
Proof. intros E. rewrite E in p_last. discriminate. Qed.
Lemma last_xor a : forall b, length a = length b -> last (xor a b) false = xorb (last a false) (last b false).
Proof.
  induction a as [|x a IH]; intros [|y b] L; try discriminate; [reflexivity|].
  cbn [xor]. destruct a as [|x' a], b as [|y' b]; try discriminate; [reflexivity|].
  cbn [xor]. change (last (xorb x y :: xorb x' y' :: xor a b) false) with (last (xor (x' :: a) (y' :: b)) false).
  rewrite IH by (cbn in *; lia). reflexivity.
Qed.
Lemma last_repeat n : last (repeat false n) false = false.
Proof. induction n as [|[|n] IH]; [reflexivity|reflexivity|]. exact IH. Qed.
Lemma app_last a b : a ++ [b] = repeat false (S (length a)) -> a = repeat false (length a).
Proof. intros H. rewrite <- repeat_snoc in H. apply app_inj_tail in H. apply H. Qed.
Lemma step_back r : length r = length p -> step r false = zeros -> r = zeros.
Proof.
  intros L H. destruct r as [|t r]; [unfold zeros; rewrite <- L; reflexivity|].
  cbn [step] in H. rewrite xorb_false_r in H. cbn [length] in L.
  assert (LL : length (r ++ [false]) = length p) by (rewrite app_length; cbn; lia).
  destruct t.
  - exfalso. apply (f_equal (fun l => last l false)) in H. rewrite last_xor in H by exact LL.
    rewrite last_last, p_last in H. unfold zeros in H. rewrite last_repeat in H. discriminate.
  - unfold zeros in *. rewrite <- L in *. apply app_last in H. rewrite H at 1. reflexivity.
Qed.
Lemma run_back n : forall r, length r = length p -> run (repeat false n) r = zeros -> r = zeros.
Proof.
  induction n as [|n IH]; intros r L H; [exact H|]. cbn [repeat run fold_left] in H.
  apply step_back; [exact L|]. apply IH; [now apply step_length|exact H].
Qed.
Lemma zeros_length : length zeros = length p. Proof. apply repeat_length. Qed.
Lemma run_zero_iff x r : length x = length p -> length r = length p -> (run x r = zeros <-> x = r).
Proof.
  intros Lx Lr. split; [|intros ->; now apply run_self].
  intros H. pose proof (run_linear x x x r eq_refl Lx Lr) as X. rewrite (run_self x Lx), H, xor_self, xor_self in X.
  rewrite zeros_length in X. change (repeat false (length p)) with zeros in X. apply run_back in X; [|rewrite xor_length; congruence].
  eapply xor_cancel; [exact Lx|exact Lr|exact X].
Qed.

(** ** what goes unnoticed *)
Notation g := (true :: p).
Notation mult n := (sum_of_shifts g n).
Lemma mult_length n e : mult n e -> length e = n.
Proof.
  induction 1 as [|e k H IH K]; [apply repeat_length|]. rewrite xor_length; [exact IH|].
  rewrite IH, !app_length, !repeat_length. lia.
Qed.
Lemma run_gen : run g zeros = zeros.
Proof.
  cbn [run fold_left]. assert (E : step zeros true = p).
  { unfold zeros. destruct (length p) as [|n] eqn:H; [destruct p; [reflexivity|discriminate]|].
    cbn [repeat step xorb]. rewrite repeat_snoc, <- H. now apply zero_xor. }
  rewrite E. now apply run_self.
Qed.
Lemma mult_run n e : mult n e -> run e zeros = zeros.
Proof.
  induction 1 as [|e k H IH K]; [apply run_zeros|].
  set (s := repeat false k ++ g ++ repeat false (n - k - length g)).
  assert (Es : run s zeros = zeros) by (unfold s; now rewrite !run_app, run_zeros, run_gen, run_zeros).
  assert (Z : xor zeros zeros = zeros) by apply (xor_zero zeros), zeros_length.
  rewrite <- Z at 1. rewrite run_linear; [rewrite IH, Es; exact Z| |apply zeros_length|apply zeros_length].
  rewrite (mult_length n e H). unfold s. rewrite !app_length, !repeat_length. lia.
Qed.
Lemma mult_shift n e : mult n e -> mult (S n) (false :: e).
Proof.
  induction 1 as [|e k H IH K]; [change (false :: repeat false n) with (repeat false (S n)); constructor|].
  pose proof (one_more g (S n) (false :: e) (S k) IH ltac:(lia)) as X.
  replace (S n - S k - length g) with (n - k - length g) in X by lia. cbn [repeat app xor xorb] in X. exact X.
Qed.
Lemma run_mult n : forall e, length e = n -> run e zeros = zeros -> mult n e.
Proof.
  induction n as [|n IH]; intros e L H.
  - destruct e; [|discriminate]. change (@nil bool) with (repeat false 0). constructor.
  - destruct e as [|b e]; [discriminate|]. injection L as L. destruct b.
    + destruct (Nat.lt_ge_cases (length e) (length p)) as [Hl|Hl].
      * exfalso. set (k := length p - length e).
        assert (H2 : run ((true :: e) ++ repeat false k) zeros = zeros) by now rewrite run_app, H, run_zeros.
        assert (Le : length (e ++ repeat false k) = length p) by (rewrite app_length, repeat_length; unfold k; lia).
        pose proof run_gen as HG. cbn [run fold_left app] in H2, HG.
        assert (SL : length (step zeros true) = length p) by (apply step_length, zeros_length).
        apply (run_zero_iff _ _ Le SL) in H2. apply (run_zero_iff _ _ eq_refl SL) in HG. rewrite <- HG in H2.
        apply (f_equal (fun l => last l false)) in H2. rewrite p_last in H2.
        destruct k as [|k'] eqn:Ek; [unfold k in *; lia|]. rewrite <- repeat_snoc, app_assoc, last_last in H2. discriminate.
      * set (s := repeat false 0 ++ g ++ repeat false (S n - 0 - length g)).
        assert (Ls : length s = S n) by (unfold s; rewrite !app_length, !repeat_length; cbn [length]; lia).
        assert (Z : xor zeros zeros = zeros) by apply (xor_zero zeros), zeros_length.
        assert (E2 : run (xor (true :: e) s) zeros = zeros).
        { rewrite <- Z at 1. rewrite run_linear; [|cbn [length]; lia|apply zeros_length|apply zeros_length].
          rewrite H. unfold s. rewrite !run_app. rewrite (run_zeros 0), run_gen, run_zeros. exact Z. }
        assert (E3 : xor (true :: e) s = false :: xor e (p ++ repeat false (S n - 0 - length g))) by reflexivity.
        assert (M : mult (S n) (xor (true :: e) s)).
        { rewrite E3 in *. apply mult_shift. apply IH.
          - rewrite xor_length; [exact L|]. rewrite app_length, repeat_length. cbn [length]. lia.
          - cbn [run fold_left] in E2. rewrite step_zeros in E2. exact E2. }
        pose proof (one_more g (S n) _ 0 M ltac:(cbn [length]; lia)) as X. fold s in X.
        rewrite xor_assoc, xor_self, Ls, xor_zero in X by (cbn [length]; lia). exact X.
    + apply mult_shift. apply IH; [exact L|]. cbn [run fold_left] in H. rewrite step_zeros in H. exact H.
Qed.
Theorem unnoticed n e : length e = n -> (run e zeros = zeros <-> mult n e).
Proof. intros L. split; [now apply run_mult|apply mult_run]. Qed.

(** a check word: the register's contents inverted, sent after the data *)
Definition check (w : bits) : bits := map negb (run w zeros).
Lemma map_negb_xor c : forall e, length c = length e -> map negb (xor c e) = xor (map negb c) e.
Proof.
  induction c as [|x c IH]; intros [|y e] L; try discriminate; [reflexivity|]. cbn [xor map]. rewrite IH by (cbn in L; lia).
  f_equal. destruct x, y; reflexivity.
Qed.
Lemma negb_twice c : map negb (map negb c) = c.
Proof. induction c as [|x c IH]; [reflexivity|]. cbn [map]. now rewrite IH, negb_involutive. Qed.
Lemma check_run w c : length c = length p -> (c = check w <-> run (w ++ map negb c) zeros = zeros).
Proof.
  intros L. rewrite run_app, run_zero_iff; [|now rewrite map_length|apply run_length, zeros_length].
  unfold check. split; [intros ->; apply negb_twice|intros <-; symmetry; apply negb_twice].
Qed.
(** received instead of data [w] and its check word: data [w'] and check word [c'], errors [e] *)
Theorem check_errors w c w' c' e : length c = length p -> length c' = length p -> length w' = length w -> length e = length w + length c ->
  w' ++ c' = xor (w ++ c) e -> c = check w -> (c' = check w' <-> mult (length e) e).
Proof.
  intros Lc Lc' Lw Le E G. rewrite <- (unnoticed (length e) e eq_refl). rewrite (check_run w' c' Lc').
  apply (check_run w c Lc) in G.
  set (e1 := firstn (length w) e). set (e2 := skipn (length w) e).
  assert (Ee : e = e1 ++ e2) by (symmetry; apply firstn_skipn).
  assert (L1 : length e1 = length w) by (unfold e1; rewrite firstn_length; lia).
  assert (L2 : length e2 = length c) by (unfold e2; rewrite skipn_length; lia).
  rewrite Ee in E. rewrite xor_app in E by congruence.
  assert (E' : w' = xor w e1 /\ c' = xor c e2).
  { assert (Q : length w' = length (xor w e1)) by (rewrite xor_length; congruence).
    revert E Q. clear. revert w'. generalize (xor w e1) as a, (xor c e2) as b. induction a as [|x a IH]; intros b [|y w'] E Q; try discriminate; [auto|].
    cbn [app] in E. injection E as -> E. apply IH in E; [|cbn in Q; lia]. destruct E as [-> ->]. auto. }
  destruct E' as [-> ->]. rewrite map_negb_xor by congruence.
  rewrite <- xor_app by congruence. rewrite <- Ee.
  assert (Z : xor zeros zeros = zeros) by apply (xor_zero zeros), zeros_length.
  rewrite <- Z at 1. rewrite run_linear; [|rewrite app_length, map_length; lia|apply zeros_length|apply zeros_length].
  rewrite G. unfold zeros at 1. rewrite zero_xor; [reflexivity|]. apply run_length, zeros_length.
Qed.

(** a burst not longer than the register is noticed *)
Theorem burst_noticed n e : burst (length p) e -> ~ mult n e.
Proof.
  intros (i & b & j & -> & Lb & Hb) M. apply mult_run in M. rewrite !run_app, run_zeros in M.
  apply run_back in M; [|apply run_length, zeros_length].
  assert (M2 : run (b ++ repeat false (length p - length b)) zeros = zeros) by now rewrite run_app, M, run_zeros.
  assert (LB : length (b ++ repeat false (length p - length b)) = length p) by (rewrite app_length, repeat_length; lia).
  apply (run_zero_iff _ _ LB zeros_length) in M2.
  assert (X : In true zeros) by (rewrite <- M2; apply in_or_app; now left).
  apply repeat_spec in X. discriminate.
Qed.
(** two errors *)
Theorem two_noticed n e k : two_wrong k e -> length e = n -> (mult n e <-> run (true :: repeat false (k - 1) ++ [true]) zeros = zeros).
Proof.
  intros (i & j & K & ->) L. rewrite <- unnoticed by exact L. rewrite !run_app, run_zeros. split; intros H.
  - apply run_back in H; [|repeat apply run_length; apply zeros_length]. change (true :: repeat false (k - 1) ++ [true]) with ([true] ++ repeat false (k - 1) ++ [true]). now rewrite !run_app.
  - change (true :: repeat false (k - 1) ++ [true]) with ([true] ++ repeat false (k - 1) ++ [true]) in H. rewrite !run_app in H. rewrite H. apply run_zeros.
Qed.
(** an odd number of errors, when the polynomial has an even number of terms *)
Definition parity (l : bits) : bool := fold_right xorb false l.
Lemma parity_app a b : parity (a ++ b) = xorb (parity a) (parity b).
Proof.
  induction a as [|x a IH]; [cbn [app parity fold_right]; fold (parity b); now destruct (parity b)|].
  cbn [app parity fold_right]. fold (parity (a ++ b)) (parity a). rewrite IH. now rewrite xorb_assoc.
Qed.
Lemma parity_xor a : forall b, length a = length b -> parity (xor a b) = xorb (parity a) (parity b).
Proof.
  induction a as [|x a IH]; intros [|y b] L; try discriminate; [reflexivity|]. cbn. unfold parity in IH. rewrite IH by (cbn in L; lia).
  destruct x, y, (fold_right xorb false a), (fold_right xorb false b); reflexivity.
Qed.
Lemma parity_repeat n : parity (repeat false n) = false.
Proof. induction n; [reflexivity|]. cbn. unfold parity in IHn. now rewrite IHn. Qed.
Lemma parity_odd e : parity e = true <-> odd_wrong e.
Proof.
  unfold odd_wrong. induction e as [|x e IH]; [cbn; split; [discriminate|intros [k K]; lia]|].
  cbn [count_occ parity fold_right]. fold (parity e). destruct (bool_dec x true) as [->|N].
  - rewrite Nat.Odd_succ. destruct (parity e) eqn:P; cbn.
    + split; [discriminate|]. intros Ev. destruct IH as [IH _]. specialize (IH eq_refl).
      exfalso. eapply Nat.Even_Odd_False; eassumption.
    + split; [|reflexivity]. intros _. destruct (Nat.Even_or_Odd (count_occ bool_dec e true)) as [X|X]; [exact X|]. apply IH in X. discriminate.
  - destruct x; [congruence|]. rewrite xorb_false_l. exact IH.
Qed.
Hypothesis p_odd : parity p = true.
Lemma step_parity r b : length r = length p -> parity (step r b) = xorb (parity r) b.
Proof.
  intros L. destruct r as [|t r]; [exfalso; apply p_ne; destruct p; [reflexivity|discriminate]|].
  cbn [step parity fold_right]. fold (parity r). cbn [length] in L.
  destruct (xorb t b) eqn:X.
  - rewrite parity_xor, parity_app, p_odd by (rewrite app_length; cbn; lia). cbn. destruct t, b, (parity r); try discriminate; reflexivity.
  - rewrite parity_app. cbn. destruct t, b, (parity r); try discriminate; reflexivity.
Qed.
Lemma run_parity e : forall r, length r = length p -> parity (run e r) = xorb (parity r) (parity e).
Proof.
  induction e as [|b e IH]; intros r L; [cbn [run fold_left parity fold_right]; fold (parity r); now destruct (parity r)|]. cbn [run fold_left parity fold_right]. fold (parity e).
  fold (run e (step r b)). rewrite IH by now apply step_length. rewrite step_parity by exact L. apply xorb_assoc.
Qed.
Theorem odd_noticed n e : odd_wrong e -> ~ mult n e.
Proof.
  intros O M. apply mult_run in M. apply (f_equal parity) in M. rewrite run_parity in M by apply zeros_length.
  unfold zeros in M. rewrite parity_repeat in M. apply parity_odd in O. rewrite O in M. discriminate.
Qed.
End Register.
