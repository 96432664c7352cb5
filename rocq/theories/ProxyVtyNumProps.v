(** C74, C68: the numbers and words of a command line, outside the ranges the commands are meant
    for: digits in capitals and small letters, negative numbers, numbers that do not fit. *)
From Coq Require Import List Arith Lia Bool ZArith Ascii String DecimalString.
From Coq Require Decimal DecimalN DecimalPos.
From Verif Require Import Base ProxyModel ProxyVtyModel ProxyVtyProofs.
From Verif Require VtyModel VtyProofs.
Import ListNotations.
Open Scope string_scope.
Open Scope Z_scope.

(** a character is a digit of value n exactly if it stands at place n of one of these *)
Theorem C74_digit a d : digit a = Some d <-> exists n, d = Z.of_nat n /\
  (String.get n "0123456789abcdef" = Some a \/ String.get n "0123456789ABCDEF" = Some a).
Proof.
  split.
  - destruct a as [[] [] [] [] [] [] [] []]; intros H; vm_compute in H; try discriminate H;
      inversion H; subst d;
      match goal with |- exists n, ?z = _ /\ _ => exists (Z.to_nat z) end; (split; [reflexivity|]); ((left; reflexivity) || (right; reflexivity)).
  - intros (n & -> & H). assert (L : (n < 16)%nat).
    { destruct (Nat.lt_ge_cases n 16) as [L|L]; [easy|].
      do 16 (destruct n as [|n]; [lia|]). cbn in H. destruct H as [H|H]; discriminate H. }
    do 16 (destruct n as [|n]; [destruct H as [H|H]; inversion H; reflexivity|]). lia.
Qed.

(** atoi() of a number written with a sign *)
Theorem C74_negative z : 0 < z <= 2^31 -> atoi (VtyModel.num (- z)) = - z.
Proof.
  intros H. destruct z as [|p|p]; try lia. cbn [Z.opp VtyModel.num append]. unfold atoi. cbn [sign]. cbn [Ascii.eqb Bool.eqb].
  rewrite digits_uint, DecimalN.Unsigned.of_to. cbn [Z.of_N]. change (2^31) with 2147483648 in *. change (2^32) with 4294967296. change (2^63) with 9223372036854775808.
  replace (_ <? Z.pos p) with false by lia. rewrite Z.mod_small; lia.
Qed.
(** a number too large for a long becomes LONG_MAX (LONG_MIN), of which an int keeps the low
    bits *)
Theorem C74_huge z : 2^63 <= z -> atoi (VtyModel.num z) = -1 /\ atoi (VtyModel.num (- z)) = 0.
Proof.
  intros H. split.
  - rewrite num_uint by lia. unfold atoi. rewrite digit_sign, digits_uint, DecimalN.Unsigned.of_to, Z2N.id by lia.
    change (2^63) with 9223372036854775808 in *. change (2^31) with 2147483648. change (2^32) with 4294967296.
    replace (_ <? z) with true by lia. reflexivity.
  - destruct z as [|p|p]; try lia. cbn [Z.opp VtyModel.num append]. unfold atoi. cbn [sign]. cbn [Ascii.eqb Bool.eqb].
    rewrite digits_uint, DecimalN.Unsigned.of_to. cbn [Z.of_N]. change (2^63) with 9223372036854775808 in *. change (2^31) with 2147483648. change (2^32) with 4294967296.
    destruct (9223372036854775808 <? Z.pos p) eqn:Q; [reflexivity|]. replace (Z.pos p) with 9223372036854775808 by lia. reflexivity.
Qed.
Example C74_num_ex : atoi (VtyModel.num (-5)) = -5 /\ atoi "12abc" = 12 /\ atoi "+7" = 7 /\ digit "F" = Some 15 /\ digit "g" = None.
Proof. now vm_compute. Qed.

(** ** White space: tab, line feed, vertical tab, form feed, carriage return and blank separate
    words alike; no other character does *)
Definition white (a : ascii) : Prop := exists n, a = ascii_of_nat n /\ In n [9; 10; 11; 12; 13; 32]%nat.
Lemma white_is a : white a <-> VtyModel.is_space a = true.
Proof.
  split.
  - intros (n & -> & H). cbn in H. repeat (destruct H as [<-|H]; [reflexivity|]). contradiction.
  - intros H. exists (nat_of_ascii a). split; [now rewrite ascii_nat_embedding|]. unfold VtyModel.is_space in H.
    apply orb_prop in H as [H|H].
    + apply Nat.eqb_eq in H. rewrite H. cbn. tauto.
    + apply andb_prop in H as [A B]. apply Nat.leb_le in A, B. cbn [In]. lia.
Qed.
Lemma span_app w a r : VtyProofs.nospace w = true -> VtyModel.is_space a = true -> VtyModel.words (w ++ String a r) = VtyModel.push w (VtyModel.words r).
Proof.
  intros N A. unfold VtyModel.words. assert (G : VtyModel.span (w ++ String a r) = (w, let (x, y) := VtyModel.span r in VtyModel.push x y)).
  { induction w as [|b w IH]; cbn [append VtyModel.span VtyProofs.nospace] in *.
    - destruct (VtyModel.span r) as [x y]. now rewrite A.
    - apply andb_prop in N as [B N]. rewrite (IH N). apply negb_true_iff in B. now rewrite B. }
  rewrite G. reflexivity.
Qed.
Lemma nospace_spec w : VtyProofs.nospace w = true <-> forall n a, String.get n w = Some a -> ~ white a.
Proof.
  induction w as [|b w IH].
  - split; [intros _ [|n] a H; discriminate H|easy].
  - cbn [VtyProofs.nospace]. rewrite andb_true_iff, negb_true_iff, IH. split.
    + intros [B C] [|n] a H; cbn in H; [injection H as <-; rewrite white_is; congruence|now apply (C n)].
    + intros H. split.
      * destruct (VtyModel.is_space b) eqn:Q; [|easy]. exfalso. apply (H O b eq_refl). now apply white_is.
      * intros n a G. exact (H (S n) a G).
Qed.
(** the words of a text: an initial piece without white space up to the first white space is a
    word (if not empty), then come the words of the rest *)
Theorem C68_words w : (forall n a, String.get n w = Some a -> ~ white a) ->
  VtyModel.words w = (match w with EmptyString => [] | _ => [w] end) /\
  forall a r, white a -> VtyModel.words (w ++ String a r) = (match w with EmptyString => VtyModel.words r | _ => w :: VtyModel.words r end).
Proof.
  intros N. apply nospace_spec in N. split.
  - assert (G : VtyModel.span w = (w, [])).
    { induction w as [|b w IH]; [reflexivity|]. cbn [VtyModel.span VtyProofs.nospace] in *. apply andb_prop in N as [B N]. rewrite (IH N). apply negb_true_iff in B. now rewrite B. }
    unfold VtyModel.words. rewrite G. now destruct w.
  - intros a r A. apply white_is in A. rewrite (span_app w a r N A). now destruct w.
Qed.
Example C68_words_ex : VtyModel.words (String (ascii_of_nat 9) "e1_line 3" ++ String (ascii_of_nat 13) EmptyString) = ["e1_line"; "3"].
Proof. reflexivity. Qed.
