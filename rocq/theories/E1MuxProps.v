(** C37: the multiplexer of a timeslot, asked for by line number and timeslot number. *)
From Coq Require Import List Arith Lia Bool ZArith String.
From Verif Require Import Base E1Model E1Spec E1Proofs E1Props.
Import ListNotations.
Open Scope Z_scope.

(** for the number of a line that was created and is alive, timeslot numbers 1 to 32 name its 32
    timeslots in order; the answer for no such line is NULL; and for any other timeslot number of
    such a line the call reads outside the line's timeslots *)
Theorem C37_mux : forall ops w h, run world0 ops = Some (w, h) -> forall num ts_nr,
  (forall lid, created_as h num lid -> 0 < refs h lid -> 1 <= ts_nr <= 32 ->
     exists i t l, e1inp_get_mux w num ts_nr = Some (Some (lid, i)) /\ Z.of_nat i = ts_nr - 1 /\
       find_line w lid = Some l /\ nth_error (ln_ts l) i = Some t) /\
  ((forall lid, created_as h num lid -> refs h lid = 0) -> e1inp_get_mux w num ts_nr = Some None) /\
  (forall lid, created_as h num lid -> 0 < refs h lid -> ~ 1 <= ts_nr <= 32 -> e1inp_get_mux w num ts_nr = None).
Proof.
  intros ops w h R num ts_nr. pose proof (LInv_run _ _ _ R) as I. pose proof (C37_find _ _ _ R num) as F. unfold e1inp_get_mux. split; [|split].
  - intros lid C P B. rewrite (proj2 (F lid) (conj C P)). replace ((1 <=? ts_nr) && (ts_nr <=? 32)) with true by lia.
    assert (X : find_line w lid <> None) by (now apply (proj1 (C37_alive_iff_referenced _ _ _ R lid))).
    destruct (find_line w lid) as [l|] eqn:L; [|contradiction]. pose proof (wf_len w (li_wf _ _ I) l (proj1 (find_id_in _ _ _ L))) as N.
    destruct (nth_error (ln_ts l) (Z.to_nat (ts_nr - 1))) as [t|] eqn:T.
    + exists (Z.to_nat (ts_nr - 1)), t, l. split; [easy|]. split; [lia|]. easy.
    + apply nth_error_None in T. rewrite N in T. unfold NUM_E1_TS in T. lia.
  - intros N. destruct (e1inp_line_find w num) as [lid|] eqn:Q; [|reflexivity]. exfalso. destruct (proj1 (F lid) eq_refl) as [C P]. rewrite (N lid C) in P. lia.
  - intros lid C P B. rewrite (proj2 (F lid) (conj C P)). replace ((1 <=? ts_nr) && (ts_nr <=? 32)) with false by lia. reflexivity.
Qed.
(** different timeslots have different multiplexers *)
Theorem C37_mux_apart w n1 t1 n2 t2 x : e1inp_get_mux w n1 t1 = Some (Some x) -> e1inp_get_mux w n2 t2 = Some (Some x) ->
  e1inp_line_find w n1 = e1inp_line_find w n2 /\ t1 = t2.
Proof.
  unfold e1inp_get_mux. intros A B. destruct (e1inp_line_find w n1) as [a|]; [|discriminate A]. destruct (e1inp_line_find w n2) as [b|]; [|discriminate B].
  destruct ((1 <=? t1) && (t1 <=? 32)) eqn:P; [|discriminate A]. destruct ((1 <=? t2) && (t2 <=? 32)) eqn:Q; [|discriminate B].
  injection A as <-. injection B as <- E. apply andb_prop in P as [P _], Q as [Q _]. split; [easy|]. lia.
Qed.
Example C37_mux_ex : exists w h, run world0 [Create 7 true] = Some (w, h) /\ e1inp_get_mux w 7 32 = Some (Some (0%nat, 31%nat)) /\ e1inp_get_mux w 7 33 = None /\ e1inp_get_mux w 8 1 = Some None.
Proof. do 2 eexists. split; [reflexivity|]. now vm_compute. Qed.
