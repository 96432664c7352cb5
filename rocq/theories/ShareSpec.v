(** What C91 compares with: lines and copies in a world where memory is never given back.  A line
    is known by number; it names a counter and, maybe, a piece of data; a copy names the same. *)
From Coq Require Import List Arith Bool ZArith.
From Verif Require Import ShareModel.
Import ListNotations.

Record ideal := mkI { i_lines : list line; i_val : nat -> Z; i_next : nat; i_out : list eff }.
Definition i_init : ideal := mkI [] (fun _ => 0%Z) 0 [].
Definition vset (f : nat -> Z) (o : nat) (v : Z) : nat -> Z := fun p => if Nat.eqb p o then v else f p.
(** counters of the lines there are, the newest first *)
Definition counters (i : ideal) : list nat :=
  filter (fun g => existsb (fun x => Nat.eqb (l_ctr x) g) (i_lines i)) (rev (seq 0 (i_next i))).
Definition says (i : ideal) (e : eff) : ideal := mkI (i_lines i) (i_val i) (i_next i) (i_out i ++ [e]).
Definition i_step (i : ideal) (v : ev) : ideal :=
  let n := i_next i in
  let on l f := match List.find (fun x => Nat.eqb (l_id x) l) (i_lines i) with Some x => f x | None => i end in
  match v with
  | Create true => mkI (i_lines i ++ [mkL n (S n) None]) (vset (i_val i) (S n) 0%Z) (S (S n)) (i_out i ++ [EMade n])
  | Create false => mkI (i_lines i) (i_val i) (S (S n)) (i_out i ++ [ERefused])
  | Clone l => on l (fun x => mkI (i_lines i ++ [mkL n (l_ctr x) (l_data x)]) (i_val i) (S n) (i_out i ++ [EMade n]))
  | Data l => on l (fun x => match l_data x with Some _ => i | None =>
      mkI (map (fun y => if Nat.eqb (l_id y) l then mkL l (l_ctr y) (Some n) else y) (i_lines i)) (vset (i_val i) n 0%Z) (S n) (i_out i) end)
  | Write l v => on l (fun x => match l_data x with Some d => mkI (i_lines i) (vset (i_val i) d v) n (i_out i) | None => i end)
  | Read l => on l (fun x => says i (match l_data x with Some d => EVal (i_val i d) | None => ENull end))
  | Count l => on l (fun x => mkI (i_lines i) (vset (i_val i) (l_ctr x) (1 + i_val i (l_ctr x))%Z) n (i_out i))
  | Tick => says i (ETick (map (i_val i) (counters i)))
  | End l => mkI (filter (fun x => negb (Nat.eqb (l_id x) l)) (i_lines i)) (i_val i) n (i_out i)
  end.
Definition i_run (vs : list ev) : ideal := fold_left i_step vs i_init.
(** line [x] points to object [o] *)
Definition points (o : nat) (x : line) : Prop := l_ctr x = o \/ l_data x = Some o.
