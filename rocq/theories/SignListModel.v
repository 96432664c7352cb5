(** The lists of signalling links of the timeslots, as memory: struct llist_head cells pointing to
    each other (include/osmocom/abis/e1_input.h:96 sign_links, :171 list), src/e1_input.c.

    Addresses are symbolic: a list head inside a timeslot of a line, or the list member of a
    signalling link.  Reading or writing a cell that is not (any more) a list is a fault. *)
From Coq Require Import List Arith Bool ZArith.
From Verif Require Import Base.
Import ListNotations.
Open Scope Z_scope.

Inductive addr := Head (l t : nat) | Link (k : nat).
Definition aeqb (a b : addr) : bool :=
  match a, b with
  | Head l t, Head m u => Nat.eqb l m && Nat.eqb t u
  | Link k, Link j => Nat.eqb k j
  | _, _ => false
  end.
Record cell := mkC { nxt : addr; prv : addr }.
Definition heap := addr -> option cell.
Definition put (h : heap) (a : addr) (c : option cell) : heap := fun x => if aeqb x a then c else h x.

(** ** linuxlist.h of libosmocore *)
Definition wr_nxt (h : heap) (a v : addr) : option heap := match h a with Some c => Some (put h a (Some (mkC v (prv c)))) | None => None end.
Definition wr_prv (h : heap) (a v : addr) : option heap := match h a with Some c => Some (put h a (Some (mkC (nxt c) v))) | None => None end.
(** INIT_LLIST_HEAD *)
Definition init_head (h : heap) (a : addr) : heap := put h a (Some (mkC a a)).
(** llist_add_tail, __llist_add *)
Definition add_tail (h : heap) (new head : addr) : option heap :=
  do c <- h head;
  do h <- wr_prv h head new;
  do h <- wr_nxt h new head;
  do h <- wr_prv h new (prv c);
  wr_nxt h (prv c) new.
(** llist_del_init, __llist_del *)
Definition del_init (h : heap) (e : addr) : option heap :=
  do c <- h e;
  do h <- wr_prv h (nxt c) (prv c);
  do h <- wr_nxt h (prv c) (nxt c);
  Some (init_head h e).
(** llist_empty *)
Definition is_empty (h : heap) (a : addr) : option bool := do c <- h a; Some (aeqb (nxt c) a).

(** ** Lines and links *)
(** struct e1inp_sign_link: ts (as line and timeslot), tei, sapi *)
Record link := mkK { k_l : nat; k_t : nat; k_tei : Z; k_sapi : Z }.
Inductive eff := Found (l t : nat) (tei sapi : Z) (k : option nat) | Made (k : nat) | NoLink | Freed (k : nat) | Twice (k : nat).
(** [kind]: ts->type is E1INP_TS_TYPE_SIGN; [lks]: the link structures that exist *)
Record st := mkS { hp : heap; kind : nat -> nat -> bool; lks : list (nat * link); lns : list nat; out : list eff }.
Definition init : st := mkS (fun _ => None) (fun _ _ => false) [] [] [].
Definition emit (s : st) (e : eff) : st := mkS (hp s) (kind s) (lks s) (lns s) (out s ++ [e]).
Definition w_hp (s : st) (h : heap) : st := mkS h (kind s) (lks s) (lns s) (out s).
Definition find_k (ks : list (nat * link)) (k : nat) : option link := option_map snd (find (fun p => Nat.eqb (fst p) k) ks).
Definition has_line (s : st) (l : nat) : bool := existsb (Nat.eqb l) (lns s).
Definition on_line (l : nat) (p : nat * link) : bool := Nat.eqb (k_l (snd p)) l.
Inductive res := Ok (s : st) | Fault | Hang.

(** [Other]: any other e1inp_ts_config_* *)
Inductive op :=
| Line (l : nat) | Clone (l m : nat) | Free (l : nat) | Sign (l t : nat) | Other (l t : nat)
| Create (k l t : nat) (tei sapi : Z) | Destroy (k : nat) (during : list op) | Lookup (l t : nat) (tei sapi : Z).

(** :766-777 e1inp_lookup_sign_link: the loop of llist_for_each_entry; anything but a link in the
    list is taken for one *)
Inductive lres := Ans (k : option nat) | LFault | LHang.
Fixpoint loop (fuel : nat) (h : heap) (ks : list (nat * link)) (head pos : addr) (tei sapi : Z) : lres :=
  match fuel with
  | O => LHang
  | S f =>
    if aeqb pos head then Ans None else
    match pos with
    | Link k =>
      match find_k ks k, h pos with
      | Some x, Some c => if (k_sapi x =? sapi) && (k_tei x =? tei) then Ans (Some k) else loop f h ks head (nxt c) tei sapi
      | _, _ => LFault
      end
    | Head _ _ => LFault
    end
  end.
Definition lookup (fuel : nat) (s : st) (l t : nat) (tei sapi : Z) : res :=
  match hp s (Head l t) with
  | None => Fault
  | Some c => match loop fuel (hp s) (lks s) (Head l t) (nxt c) tei sapi with
              | Ans k => Ok (emit s (Found l t tei sapi k)) | LFault => Fault | LHang => Hang end
  end.
Definition live (s : st) (l t : nat) : bool := has_line s l && Nat.ltb t 32.
Definition of_opt (s : st) (o : option heap) : res := match o with Some h => Ok (w_hp s h) | None => Fault end.
(** :590-655 e1inp_line_create (zeroed), :657-701 e1inp_line_clone (a copy), :526-580: the line is
    freed with its last reference, and a link holds one; :462-478 e1inp_ts_config_sign;
    :781-807 e1inp_sign_link_create.  The allocator returns no address in use. *)
Definition line_create (s : st) (l : nat) : st := if has_line s l then s else mkS (hp s) (kind s) (lks s) (lns s ++ [l]) (out s).
Definition line_clone (s : st) (l m : nat) : st :=
  if has_line s l && negb (has_line s m) then
    mkS (fun a => match a with Head i t => if Nat.eqb i m then hp s (Head l t) else hp s a | Link _ => hp s a end)
        (fun i t => if Nat.eqb i m then kind s l t else kind s i t) (lks s) (lns s ++ [m]) (out s)
  else s.
Definition line_free (s : st) (l : nat) : st :=
  if has_line s l && negb (existsb (on_line l) (lks s)) then
    mkS (fun a => match a with Head i _ => if Nat.eqb i l then None else hp s a | Link _ => hp s a end)
        (fun i t => if Nat.eqb i l then false else kind s i t) (lks s) (filter (fun i => negb (Nat.eqb i l)) (lns s)) (out s)
  else s.
Definition set_kind (s : st) (l t : nat) (b : bool) (h : heap) : st :=
  mkS h (fun i u => if Nat.eqb i l && Nat.eqb u t then b else kind s i u) (lks s) (lns s) (out s).
Definition config_sign (s : st) (l t : nat) : st :=
  if live s l t then if kind s l t then s else set_kind s l t true (init_head (hp s) (Head l t)) else s.
(** :413-432, :442-445, :480-523: cleanup_e1inp_ts complains about links that remain, but its return
    value is not used; the list head is in a union with what other types need *)
Definition config_other (s : st) (l t : nat) : st :=
  if live s l t then set_kind s l t false (put (hp s) (Head l t) None) else s.
Definition link_create (s : st) (k l t : nat) (tei sapi : Z) : res :=
  if live s l t then
    if kind s l t then
      if match find_k (lks s) k with None => false | Some _ => true end then Ok s else
      let s := mkS (put (hp s) (Link k) (Some (mkC (Link k) (Link k)))) (kind s) (lks s ++ [(k, mkK l t tei sapi)]) (lns s) (out s ++ [Made k]) in
      of_opt s (add_tail (hp s) (Link k) (Head l t))
    else Ok (emit s NoLink)
  else Ok s.
(** :809-838 e1inp_sign_link_destroy up to the driver's close, and after it *)
Definition unlink (s : st) (k : nat) : res := of_opt s (del_init (hp s) (Link k)).
Definition link_free (s : st) (k : nat) : st :=
  mkS (put (hp s) (Link k) None) (kind s) (filter (fun p => negb (Nat.eqb (fst p) k)) (lks s)) (lns s) (out s ++ [Freed k]).
Fixpoint step (s : st) (o : op) : res :=
  let run := fix run (s : st) (os : list op) : res := match os with [] => Ok s | o :: r => match step s o with Ok s => run s r | e => e end end in
  match o with
  | Line l => Ok (line_create s l)
  | Clone l m => Ok (line_clone s l m)
  | Free l => Ok (line_free s l)
  | Sign l t => Ok (config_sign s l t)
  | Other l t => Ok (config_other s l t)
  | Create k l t tei sapi => link_create s k l t tei sapi
  | Lookup l t tei sapi => if live s l t && kind s l t then lookup (S (length (lks s))) s l t tei sapi else Ok s
  | Destroy k during =>
    match find_k (lks s) k with
    | None => Ok s
    | Some _ =>
      match is_empty (hp s) (Link k) with
      | None => Fault
      | Some true => Ok (emit s (Twice k))
      | Some false =>
        match unlink s k with
        | Ok s => match run s during with Ok s => Ok (link_free s k) | e => e end
        | e => e
        end
      end
    end
  end.
Fixpoint run (s : st) (os : list op) : res := match os with [] => Ok s | o :: r => match step s o with Ok s => run s r | e => e end end.
