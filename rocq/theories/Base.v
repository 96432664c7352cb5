(** Common vocabulary of the models: C objects as lists with
    bounds-checked access.  [None] = undefined behaviour: access outside the
    object (or a failed OSMO_ASSERT). *)
From Coq Require Import List Arith Lia Bool ZArith.
Import ListNotations.

Definition bits := list bool.

Declare Scope c_scope.
Delimit Scope c_scope with c.
Notation "'do' x <- e ; f" := (match e with Some x => f | None => None end)
  (at level 200, x pattern, e at level 100, f at level 200, right associativity).

Section Arr.
Context {A : Type}.

(** [l[i]] read *)
Definition get (l : list A) (i : nat) : option A := nth_error l i.

(** [l[i] = v] *)
Definition put (l : list A) (i : nat) (v : A) : option (list A) :=
  if i <? length l then Some (firstn i l ++ v :: skipn (S i) l) else None.

(** the object range [off, off+n) must be inside the object, even for reads *)
Definition slice (l : list A) (off n : nat) : option (list A) :=
  if off + n <=? length l then Some (firstn n (skipn off l)) else None.

(** write of a whole block at [off] *)
Definition blit (dst : list A) (off : nat) (src : list A) : option (list A) :=
  if off + length src <=? length dst
  then Some (firstn off dst ++ src ++ skipn (off + length src) dst) else None.

(** memcpy(dst + doff, src + soff, n) *)
Definition memcpy (dst : list A) (doff : nat) (src : list A) (soff n : nat)
  : option (list A) :=
  do s <- slice src soff n; blit dst doff s.

(** memset(dst + off, v, n) *)
Definition memset (dst : list A) (off : nat) (v : A) (n : nat) : option (list A) :=
  blit dst off (repeat v n).

(** consecutive stores  l[off] = v0; l[off+1] = v1; ... *)
Definition puts := blit.

End Arr.

(** C errno return values *)
Definition EINVAL : Z := (-22)%Z.
Definition ENOSPC : Z := (-28)%Z.
Definition ENOMEM : Z := (-12)%Z.
Definition EIO : Z := (-5)%Z.
Definition ENODEV : Z := (-19)%Z.
Definition EEXIST : Z := (-17)%Z.
Definition ENOMSG : Z := (-42)%Z.
Definition ENOTSUP : Z := (-95)%Z.

(** bounded loop with checked body: for (i = from; n iterations; i++) *)
Fixpoint forM {T : Type} (n from : nat) (body : nat -> T -> option T) (s : T) : option T :=
  match n with
  | O => Some s
  | S n' => do s' <- body from s; forM n' (S from) body s'
  end.

(** [n] bits given by an index function: "an arbitrary n-bit vector" *)
Definition vec (n : nat) (f : nat -> bool) : bits := map f (seq 0 n).

(** * Lemmas *)
Section Lemmas.
Context {A : Type}.

Lemma put_length (l l' : list A) i v : put l i v = Some l' -> length l' = length l.
Proof.
  unfold put; destruct (Nat.ltb_spec i (length l)); [|discriminate].
  intros E. assert (l' = firstn i l ++ v :: skipn (S i) l) as -> by congruence.
  rewrite app_length, firstn_length.
  change (length (v :: skipn (S i) l)) with (S (length (skipn (S i) l))).
  rewrite skipn_length. lia.
Qed.

Lemma blit_length (l l' s : list A) o : blit l o s = Some l' -> length l' = length l.
Proof.
  unfold blit; destruct (Nat.leb_spec (o + length s) (length l)); [|discriminate].
  intros E; injection E as <-. rewrite !app_length, firstn_length, skipn_length. lia.
Qed.

Lemma slice_length (l l' : list A) o n : slice l o n = Some l' -> length l' = n.
Proof.
  unfold slice; destruct (Nat.leb_spec (o + n) (length l)); [|discriminate].
  intros E; injection E as <-. rewrite firstn_length, skipn_length. lia.
Qed.

Lemma slice_some (l : list A) o n : o + n <= length l -> slice l o n = Some (firstn n (skipn o l)).
Proof. intros; unfold slice; destruct (Nat.leb_spec (o + n) (length l)); [reflexivity|lia]. Qed.

Lemma blit_some (l s : list A) o : o + length s <= length l ->
  blit l o s = Some (firstn o l ++ s ++ skipn (o + length s) l).
Proof. intros; unfold blit; destruct (Nat.leb_spec (o + length s) (length l)); [reflexivity|lia]. Qed.

Lemma memcpy_some (d s : list A) p q n : q + n <= length s -> p + n <= length d ->
  memcpy d p s q n = Some (firstn p d ++ firstn n (skipn q s) ++ skipn (p + n) d).
Proof.
  intros. unfold memcpy. rewrite slice_some by assumption.
  assert (L : length (firstn n (skipn q s)) = n) by (rewrite firstn_length, skipn_length; lia).
  rewrite blit_some by (rewrite L; assumption). rewrite L. reflexivity.
Qed.

Lemma firstn_app_exact (a b : list A) n : length a = n -> firstn n (a ++ b) = a.
Proof. intros <-. rewrite firstn_app, Nat.sub_diag, firstn_O, app_nil_r. apply firstn_all. Qed.

Lemma skipn_app_exact (a b : list A) n : length a = n -> skipn n (a ++ b) = b.
Proof. intros <-. rewrite skipn_app, Nat.sub_diag, skipn_all. reflexivity. Qed.

Lemma firstn_skipn_comm' (l : list A) n m : firstn n l ++ firstn m (skipn n l) = firstn (n + m) l.
Proof. revert l; induction n; intros [|x l]; cbn; try reflexivity. - now destruct m. - f_equal; apply IHn. Qed.

Lemma skipn_skipn' (l : list A) n m : skipn n (skipn m l) = skipn (m + n) l.
Proof. revert l; induction m; intros [|x l]; cbn; try reflexivity. - now rewrite skipn_nil. - apply IHm. Qed.

Lemma nth_error_firstn (l : list A) n i : i < n -> nth_error (firstn n l) i = nth_error l i.
Proof.
  revert l i; induction n; intros [|x l] i H; [lia..|now destruct i|].
  destruct i; [reflexivity|]. cbn. apply IHn; lia.
Qed.

Lemma nth_error_skipn (l : list A) n i : nth_error (skipn n l) i = nth_error l (n + i).
Proof. revert l; induction n; intros [|x l]; cbn; try reflexivity. - now destruct i. - apply IHn. Qed.

Lemma list_ext (l1 l2 : list A) : (forall i, nth_error l1 i = nth_error l2 i) -> l1 = l2.
Proof.
  revert l2; induction l1 as [|x l1 IH]; intros [|y l2] H; [reflexivity| | |].
  - specialize (H 0); discriminate.
  - specialize (H 0); discriminate.
  - f_equal; [specialize (H 0); now injection H | apply IH; intros i; exact (H (S i))].
Qed.
End Lemmas.

Lemma vec_length n f : length (vec n f) = n.
Proof. unfold vec; now rewrite map_length, seq_length. Qed.

Lemma map_nth_seq (l : bits) k : map (fun i => nth (i - k) l false) (seq k (length l)) = l.
Proof.
  revert k; induction l as [|x l IH]; intros k; [reflexivity|].
  cbn [length seq map]. rewrite Nat.sub_diag; cbn [nth]. f_equal.
  transitivity (map (fun i => nth (i - S k) l false) (seq (S k) (length l))); [|apply IH].
  apply map_ext_in. intros i Hi. apply in_seq in Hi.
  replace (i - k) with (S (i - S k)) by lia. reflexivity.
Qed.

(** every n-bit list is a [vec] *)
Lemma vec_of_list (l : bits) n : length l = n -> l = vec n (fun i => nth i l false).
Proof.
  intros <-. unfold vec. symmetry. rewrite <- (map_nth_seq l 0) at 2.
  apply map_ext. intros. now rewrite Nat.sub_0_r.
Qed.

Lemma vec_intro (P : bits -> Prop) n : (forall f, P (vec n f)) -> forall l, length l = n -> P l.
Proof. intros H l Hl. rewrite (vec_of_list l n Hl). apply H. Qed.

Lemma nth_vec n f i : i < n -> nth_error (vec n f) i = Some (f i).
Proof.
  intros H. unfold vec. rewrite nth_error_map.
  assert (E : nth_error (seq 0 n) i = Some i).
  { rewrite (nth_error_nth' _ 0) by now rewrite seq_length. now rewrite seq_nth. }
  now rewrite E.
Qed.

(** * Splicing: result of writing block [x] at offset [o] *)
Section Splice.
Context {A : Type}.
Definition splice (l : list A) (o : nat) (x : list A) : list A :=
  firstn o l ++ x ++ skipn (o + length x) l.

Lemma splice_length (l x : list A) o : o + length x <= length l -> length (splice l o x) = length l.
Proof. intros. unfold splice. rewrite !app_length, firstn_length, skipn_length. lia. Qed.

Lemma blit_splice (l x : list A) o : o + length x <= length l -> blit l o x = Some (splice l o x).
Proof. apply blit_some. Qed.

Lemma put_splice (l : list A) o v : o < length l -> put l o v = Some (splice l o [v]).
Proof.
  intros. unfold put, splice. destruct (Nat.ltb_spec o (length l)); [|lia].
  cbn [length app]. now rewrite Nat.add_1_r.
Qed.

Lemma splice_splice (l x y : list A) o : o + length x + length y <= length l ->
  splice (splice l o x) (o + length x) y = splice l o (x ++ y).
Proof.
  intros H.
  assert (L : length (firstn o l ++ x) = o + length x)
    by (rewrite app_length, firstn_length; lia).
  assert (E : splice l o x = (firstn o l ++ x) ++ skipn (o + length x) l)
    by (unfold splice; now rewrite app_assoc).
  unfold splice at 1. rewrite E, firstn_app_exact by assumption.
  rewrite skipn_app, L, (skipn_all2 (n := o + length x + length y)) by lia.
  replace (o + length x + length y - (o + length x)) with (length y) by lia.
  cbn [app]. rewrite skipn_skipn'. unfold splice. rewrite app_length, <- !app_assoc.
  now rewrite Nat.add_assoc.
Qed.

Lemma splice_next (l x y : list A) o o' : o' = o + length x -> o + length x + length y <= length l ->
  splice (splice l o x) o' y = splice l o (x ++ y).
Proof. intros ->. apply splice_splice. Qed.

Lemma splice_nil (l : list A) o : splice l o [] = l.
Proof. unfold splice. cbn. rewrite Nat.add_0_r. apply firstn_skipn. Qed.

Lemma memcpy_splice (d s : list A) p q n : q + n <= length s -> p + n <= length d ->
  memcpy d p s q n = Some (splice d p (firstn n (skipn q s))).
Proof.
  intros. rewrite memcpy_some by assumption. unfold splice.
  replace (length (firstn n (skipn q s))) with n; [reflexivity|].
  rewrite firstn_length, skipn_length; lia.
Qed.

Lemma splice_full (l x : list A) : length x = length l -> splice l 0 x = x.
Proof. intros. unfold splice. cbn. rewrite skipn_all2 by lia. apply app_nil_r. Qed.

Lemma slice_sub (a s : list A) ap m i n : slice a ap m = Some s -> i + n <= m ->
  slice a (ap + i) n = slice s i n.
Proof.
  intros H Hn. pose proof (slice_length _ _ _ _ H) as L. unfold slice in H.
  destruct (Nat.leb_spec (ap + m) (length a)); [|discriminate].
  assert (s = firstn m (skipn ap a)) as -> by congruence.
  rewrite !slice_some by lia. f_equal.
  rewrite skipn_firstn_comm, firstn_firstn, skipn_skipn'.
  now rewrite Nat.min_l by lia.
Qed.

Lemma get_sub (a s : list A) ap m i : slice a ap m = Some s -> i < m ->
  get a (ap + i) = get s i.
Proof.
  intros H Hn. unfold slice in H.
  destruct (Nat.leb_spec (ap + m) (length a)); [|discriminate].
  assert (s = firstn m (skipn ap a)) as -> by congruence.
  unfold get. rewrite nth_error_firstn by assumption. now rewrite nth_error_skipn.
Qed.

Lemma slice_app_r (a b : list A) p n : slice (a ++ b) (length a + p) n = slice b p n.
Proof.
  unfold slice. rewrite app_length.
  destruct (Nat.leb_spec (length a + p + n) (length a + length b)), (Nat.leb_spec (p + n) (length b)); try lia; try reflexivity.
  f_equal. rewrite skipn_app, skipn_all2 by lia. cbn. now replace (length a + p - length a) with p by lia.
Qed.

Lemma slice_app_l (a b : list A) p n : p + n <= length a -> slice (a ++ b) p n = slice a p n.
Proof.
  intros. rewrite !slice_some by (rewrite ?app_length; lia). f_equal.
  rewrite skipn_app, firstn_app, skipn_length.
  replace (n - (length a - p)) with 0 by lia. now rewrite firstn_O, app_nil_r.
Qed.

Lemma slice_all (a : list A) n : length a = n -> slice a 0 n = Some a.
Proof. intros <-. rewrite slice_some by lia. cbn. now rewrite firstn_all. Qed.
End Splice.

Ltac optstep H := match type of H with
  | (match ?e with Some _ => _ | None => _ end) = Some _ =>
      let E := fresh "E" in destruct e eqn:E; [|discriminate H]
  end.

Ltac lenr := first [rewrite app_length | rewrite repeat_length | rewrite firstn_length
                   | rewrite skipn_length | rewrite splice_length ].
Ltac len := repeat lenr; cbn [length]; lia.
