(** Model of the end of a LAPD instance, src/input/lapd.c (the rest is in LapdModel.v). *)
From Coq Require Import List Arith Lia Bool ZArith.
From Verif Require Import Base LapdModel.
Import ListNotations.

(** what ending an instance does: lapd_dl_exit of a data link (libosmocore: its timers stop and
    its queues are freed), talloc_free of the objects *)
Inductive feff := LinkExit (id : nat) | SapFreed (id : nat) | TeiFreed (t : Z) | InstFreed.
(** lapd.c:280-291 lapd_sap_free (its effects; LapdModel.lapd_sap_free is what it does to the lists) *)
Definition sap_free_effects (x : sap) : list feff := [LinkExit (sid x); SapFreed (sid x)].
(** lapd.c:293-304 lapd_tei_free; llist_for_each_entry_safe visits the entries of the list as
    it was, in order, since only the visited entry is removed *)
Fixpoint saps_free (l : list sap) : list feff := match l with [] => [] | x :: r => sap_free_effects x ++ saps_free r end.
Definition lapd_tei_free (e : tei_ent) : list feff := saps_free (sap_list e) ++ [TeiFreed (tei e)].
(** lapd.c:716-726 lapd_instance_free *)
Fixpoint teis_free (l : list tei_ent) : list feff := match l with [] => [] | e :: r => lapd_tei_free e ++ teis_free r end.
Definition lapd_instance_free (li : inst) : list feff := teis_free (tei_list li) ++ [InstFreed].
