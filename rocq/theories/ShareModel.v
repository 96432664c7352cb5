(** src/e1_input.c: memory a line shares with its copies: the rate counter group and the driver's
    private data, as talloc objects with a parent and references.

    Events are on lines given by the identity of the object; numbers and driver names are in
    DrvModel.v, use counts in E1Model.v ([End]: the last use is returned).  Operations on lines
    that do not exist are not calls of the API and do nothing.  Not modelled: the line's own
    strings (a copy gets its own), allocation failures. *)
From Coq Require Import List Arith Lia Bool ZArith.
From Verif Require Import Base.
Import ListNotations.

(** a talloc object: its parent, the contexts that have references (the latest first), its contents *)
Record obj := mkObj { o_parent : nat; o_refs : list nat; o_val : Z }.
(** struct e1inp_line: rate_ctr, driver_data *)
Record line := mkL { l_id : nat; l_ctr : nat; l_data : option nat }.
(** [groups]: libosmocore's list of all counter groups (rate_ctr_groups) *)
Inductive eff := EMade (l : nat) | ERefused | EVal (v : Z) | ENull | ETick (l : list Z).
Record st := mkS { lines : list line; heap : nat -> option obj; groups : list nat; next : nat; out : list eff }.
Inductive res (A : Type) := Ok (a : A) | UseAfterFree.
Arguments Ok {A} a. Arguments UseAfterFree {A}.
Notation "'need' x <- a ; b" := (match a with Some x => b | None => UseAfterFree end) (at level 200, x name, a at level 100, b at level 200).
Definition st_init : st := mkS [] (fun _ => None) [] 0 [].

Definition hset (h : nat -> option obj) (o : nat) (x : option obj) : nat -> option obj := fun p => if p =? o then x else h p.
Definition find (ls : list line) (l : nat) : option line := List.find (fun x => l_id x =? l) ls.
Definition remove (ls : list line) (l : nat) : list line := filter (fun x => negb (l_id x =? l)) ls.
Fixpoint drop (l : nat) (rs : list nat) : list nat := match rs with [] => [] | r :: t => if r =? l then t else r :: drop l t end.

(** talloc: context [l] gives up its share of an object: its reference, or else its parenthood,
    which the context with the latest reference takes over; without one the object is freed *)
Definition give_up (l : nat) (x : obj) : option obj :=
  if existsb (Nat.eqb l) (o_refs x) then Some (mkObj (o_parent x) (drop l (o_refs x)) (o_val x))
  else if o_parent x =? l then match o_refs x with [] => None | r :: t => Some (mkObj r t (o_val x)) end
  else Some x.
(** talloc_unlink(l, o) *)
Definition unlink (l o : nat) (h : nat -> option obj) : res (nat -> option obj) :=
  need x <- h o; Ok (hset h o (give_up l x)).
(** talloc_free of a line: its children are freed, or go to who has a reference; its references go *)
Definition free_line (l : nat) (h : nat -> option obj) : nat -> option obj :=
  fun o => match h o with Some x => give_up l x | None => None end.
(** talloc_reference(l, o) *)
Definition reference (l o : nat) (h : nat -> option obj) : res (nat -> option obj) :=
  need x <- h o; Ok (hset h o (Some (mkObj (o_parent x) (l :: o_refs x) (o_val x)))).

(** :590-655 e1inp_line_create; [ok]: the driver's line_create does not refuse *)
Definition line_create (ok : bool) (s : st) : st :=
  let l := next s in let g := S l in
  let h := hset (heap s) g (Some (mkObj l [] 0)) in
  if ok then mkS (lines s ++ [mkL l g None]) h (g :: groups s) (S g) (out s ++ [EMade l])
  else mkS (lines s) (free_line l h) (g :: groups s) (S g) (out s ++ [ERefused]).
(** :657-701 e1inp_line_clone *)
Definition line_clone (x : line) (s : st) : res st :=
  let c := next s in
  match reference c (l_ctr x) (heap s) with
  | UseAfterFree => UseAfterFree
  | Ok h =>
    match match l_data x with Some d => reference c d h | None => Ok h end with
    | UseAfterFree => UseAfterFree
    | Ok h => Ok (mkS (lines s ++ [mkL c (l_ctr x) (l_data x)]) h (groups s) (S c) (out s ++ [EMade c]))
    end
  end.
(** :546-571 e1inp_line_use_cb, the last use is gone *)
Definition line_end (x : line) (s : st) : res st :=
  need g <- heap s (l_ctr x);
  let '(r, gs) :=
    if length (o_refs g) =? 0 then
      (Ok (hset (heap s) (l_ctr x) None), List.remove Nat.eq_dec (l_ctr x) (groups s))     (* rate_ctr_group_free *)
    else
      (match unlink (l_id x) (l_ctr x) (heap s) with
       | UseAfterFree => UseAfterFree
       | Ok h => match l_data x with Some d => unlink (l_id x) d h | None => Ok h end end, groups s) in
  match r with
  | UseAfterFree => UseAfterFree
  | Ok h => Ok (mkS (remove (lines s) (l_id x)) (free_line (l_id x) h) gs (next s) (out s))
  end.
(** src/input/ipaccess.c:1016-1021, src/input/misdn.c:1001-1006: the driver's data is allocated
    when it is first needed *)
Definition data_alloc (x : line) (s : st) : st :=
  match l_data x with
  | Some _ => s
  | None => mkS (map (fun y => if l_id y =? l_id x then mkL (l_id y) (l_ctr y) (Some (next s)) else y) (lines s))
              (hset (heap s) (next s) (Some (mkObj (l_id x) [] 0))) (groups s) (S (next s)) (out s)
  end.
(** access through a line's pointer *)
Definition poke (o : nat) (f : Z -> Z) (s : st) : res st :=
  need x <- heap s o; Ok (mkS (lines s) (hset (heap s) o (Some (mkObj (o_parent x) (o_refs x) (f (o_val x))))) (groups s) (next s) (out s)).
Definition emit (s : st) (e : eff) : st := mkS (lines s) (heap s) (groups s) (next s) (out s ++ [e]).
Definition peek (o : nat) (s : st) : res st := need x <- heap s o; Ok (emit s (EVal (o_val x))).
(** libosmocore's timer goes through all counter groups *)
Fixpoint walk (h : nat -> option obj) (gs : list nat) : option (list Z) :=
  match gs with [] => Some [] | g :: t => match h g, walk h t with Some x, Some l => Some (o_val x :: l) | _, _ => None end end.
Definition tick (s : st) : res st := need l <- walk (heap s) (groups s); Ok (emit s (ETick l)).

Inductive ev := Create (ok : bool) | Clone (l : nat) | Data (l : nat) | Write (l : nat) (v : Z) | Read (l : nat) | Count (l : nat) | Tick | End (l : nat).
Definition step (s : st) (v : ev) : res st :=
  let on l f := match find (lines s) l with Some x => f x | None => Ok s end in
  match v with
  | Create ok => Ok (line_create ok s)
  | Clone l => on l (fun x => line_clone x s)
  | Data l => on l (fun x => Ok (data_alloc x s))
  | Write l v => on l (fun x => match l_data x with Some d => poke d (fun _ => v) s | None => Ok s end)
  | Read l => on l (fun x => match l_data x with Some d => peek d s | None => Ok (emit s ENull) end)
  | Count l => on l (fun x => poke (l_ctr x) (Z.add 1) s)
  | Tick => tick s
  | End l => on l (fun x => line_end x s)
  end.
Fixpoint run (s : st) (vs : list ev) : res st :=
  match vs with [] => Ok s | v :: r => match step s v with Ok s => run s r | UseAfterFree => UseAfterFree end end.
