(** Model of the registry of E1 drivers and of line creation by driver name in src/e1_input.c.

    The registry is libosmocore's intrusive list (linuxlist.h): one pair of pointers in the list
    head and one in every driver object, so registering an object that is already registered
    rewrites pointers in use.  Objects are numbers, 0 the head e1inp_driver_list; driver objects
    are static and their names do not change.  Names are lists of character codes, without the
    terminating zero. *)
From Coq Require Import List Arith Lia Bool ZArith.
From Verif Require Import Base.
Import ListNotations.

(** struct llist_head of every object *)
Record llist := mkL { nx : nat -> nat; pv : nat -> nat }.
Definition upd (f : nat -> nat) (k v : nat) : nat -> nat := fun i => if i =? k then v else f i.
(** e1_input.c LLIST_HEAD(e1inp_driver_list): the head points to itself; the others are not read
    before they are added *)
Definition empty : llist := mkL (fun _ => 0) (fun _ => 0).
(** linuxlist.h llist_add_tail, __llist_add(_new, head->prev, head): next->prev = _new;
    _new->next = next; _new->prev = prev; prev->next = _new; in this order *)
Definition llist_add_tail (s : llist) (n : nat) : llist :=
  let prev := pv s 0 in
  let pv1 := upd (pv s) 0 n in
  let nx1 := upd (nx s) n 0 in
  let pv2 := upd pv1 n prev in
  let nx2 := upd nx1 prev n in
  mkL nx2 pv2.
(** e1_input.c:1058-1062 e1inp_driver_register *)
Definition e1inp_driver_register (s : llist) (drv : nat) : llist := llist_add_tail s drv.

(** tolower(3) in the C locale *)
Definition lower (c : Z) : Z := if ((65 <=? c) && (c <=? 90))%Z then (c + 32)%Z else c.
(** strcasecmp(a, b) = 0 *)
Fixpoint strcaseeq (a b : list Z) : bool :=
  match a, b with
  | [], [] => true
  | x :: a, y :: b => Z.eqb (lower x) (lower y) && strcaseeq a b
  | _, _ => false
  end.
(** e1_input.c:1064-1073 e1inp_driver_find: at most [fuel] objects are looked at; [None]: the loop
    goes on *)
Fixpoint find_from (names : nat -> list Z) (s : llist) (name : list Z) (cur fuel : nat) : option (option nat) :=
  match fuel with
  | O => None
  | S fuel =>
    if cur =? 0 then Some None
    else if strcaseeq name (names cur) then Some (Some cur)
    else find_from names s name (nx s cur) fuel
  end.
Definition e1inp_driver_find (names : nat -> list Z) (s : llist) (name : list Z) (fuel : nat) : option (option nat) :=
  find_from names s name (nx s 0) fuel.

(** the lines that exist, in the order of creation: number and driver *)
Record line := mkLine { l_num : Z; l_drv : nat }.
Record st := mkSt { drvs : llist; lines : list line }.
(** e1_input.c:574-584 e1inp_line_find *)
Definition e1inp_line_find (ls : list line) (nr : Z) : option line := find (fun l => Z.eqb (l_num l) nr) ls.

(** what an application does; [Create nr name rc]: e1inp_line_create, with what the driver's
    line_create returns if it is called (0 without one); [Init ds]: libosmo_abis_init, with the
    drivers compiled in; [Free nr]: the last use of line nr is given back *)
Inductive ev := Register (d : nat) | Init (ds : list nat) | Create (nr : Z) (name : list Z) (rc : Z) | Free (nr : Z) | Find (name : list Z).
Inductive out := Line (l : line) | NoLine | Driver (d : option nat) | Done.
(** e1_input.c:594-655 e1inp_line_create, :1150-1166 e1inp_init, :569 llist_del of a line that is
    freed; [fuel] as above; [None]: the call has not returned *)
Definition step (names : nat -> list Z) (fuel : nat) (x : st) (e : ev) : option (st * out) :=
  match e with
  | Register d => Some (mkSt (e1inp_driver_register (drvs x) d) (lines x), Done)
  | Init ds => Some (mkSt (fold_left e1inp_driver_register ds (drvs x)) (lines x), Done)
  | Create nr name rc =>
    match e1inp_line_find (lines x) nr with
    | Some _ => Some (x, NoLine)
    | None =>
      do r <- e1inp_driver_find names (drvs x) name fuel;
      match r with
      | None => Some (x, NoLine)
      | Some d => if (rc <? 0)%Z then Some (x, NoLine)
                  else Some (mkSt (drvs x) (lines x ++ [mkLine nr d]), Line (mkLine nr d))
      end
    end
  | Free nr => Some (mkSt (drvs x) (filter (fun l => negb (Z.eqb (l_num l) nr)) (lines x)), Done)
  | Find name => do r <- e1inp_driver_find names (drvs x) name fuel; Some (x, Driver r)
  end.
Fixpoint run (names : nat -> list Z) (fuel : nat) (x : st) (es : list ev) : option (st * list out) :=
  match es with
  | [] => Some (x, [])
  | e :: r => do (y, o) <- step names fuel x e; do (z, os) <- run names fuel y r; Some (z, o :: os)
  end.
Definition st0 : st := mkSt empty [].
