(** C83, what is meant: the same operations on plain lists. *)
From Coq Require Import List Arith Bool ZArith.
From Verif Require Import Base.
From Verif Require Export SignListModel.
Import ListNotations.
Open Scope Z_scope.

(** lines, the signalling timeslots among all timeslots, the links in the order they were made, and
    those being destroyed (the driver's close callback is running) *)
Record ast := mkA { a_lns : list nat; a_sign : nat -> nat -> bool; a_lks : list (nat * link); a_end : list (nat * link); a_out : list eff }.
Definition a_init : ast := mkA [] (fun _ _ => false) [] [] [].
Definition a_line (a : ast) (l : nat) : bool := existsb (Nat.eqb l) (a_lns a).
Definition a_ts (a : ast) (l t : nat) : bool := a_line a l && Nat.ltb t 32.
Definition is_k (k : nat) (p : nat * link) : bool := Nat.eqb (fst p) k.
Definition at_ts (l t : nat) (p : nat * link) : bool := Nat.eqb (k_l (snd p)) l && Nat.eqb (k_t (snd p)) t.
Definition a_emit (a : ast) (e : eff) : ast := mkA (a_lns a) (a_sign a) (a_lks a) (a_end a) (a_out a ++ [e]).
(** the first link there with this address *)
Definition a_find (a : ast) (l t : nat) (tei sapi : Z) : option nat :=
  option_map fst (find (fun p => at_ts l t p && (k_sapi (snd p) =? sapi) && (k_tei (snd p) =? tei)) (a_lks a)).
(** None: a rule is broken: a line with a signalling timeslot is cloned, or a timeslot with links
    gets another type.  What is not there is not used. *)
Fixpoint a_step (a : ast) (o : op) : option ast :=
  let run := fix run (a : ast) (os : list op) : option ast := match os with [] => Some a | o :: r => match a_step a o with Some a => run a r | None => None end end in
  match o with
  | Line l => Some (if a_line a l then a else mkA (a_lns a ++ [l]) (a_sign a) (a_lks a) (a_end a) (a_out a))
  | Clone l m =>
    if a_line a l && negb (a_line a m) then
      if existsb (a_sign a l) (seq 0 32) then None else Some (mkA (a_lns a ++ [m]) (a_sign a) (a_lks a) (a_end a) (a_out a))
    else Some a
  | Free l =>
    if a_line a l && negb (existsb (on_line l) (a_lks a ++ a_end a)) then
      Some (mkA (filter (fun i => negb (Nat.eqb i l)) (a_lns a)) (fun i t => negb (Nat.eqb i l) && a_sign a i t) (a_lks a) (a_end a) (a_out a))
    else Some a
  | Sign l t => Some (if a_ts a l t then mkA (a_lns a) (fun i u => Nat.eqb i l && Nat.eqb u t || a_sign a i u) (a_lks a) (a_end a) (a_out a) else a)
  | Other l t =>
    if a_ts a l t then
      if existsb (at_ts l t) (a_lks a) then None
      else Some (mkA (a_lns a) (fun i u => negb (Nat.eqb i l && Nat.eqb u t) && a_sign a i u) (a_lks a) (a_end a) (a_out a))
    else Some a
  | Create k l t tei sapi =>
    Some (if a_ts a l t then
            if a_sign a l t then
              if existsb (is_k k) (a_lks a ++ a_end a) then a else
              mkA (a_lns a) (a_sign a) (a_lks a ++ [(k, mkK l t tei sapi)]) (a_end a) (a_out a ++ [Made k]) else a_emit a NoLink
          else a)
  | Lookup l t tei sapi => Some (if a_ts a l t && a_sign a l t then a_emit a (Found l t tei sapi (a_find a l t tei sapi)) else a)
  | Destroy k during =>
    if existsb (is_k k) (a_end a) then Some (a_emit a (Twice k)) else
    match find (is_k k) (a_lks a) with
    | None => Some a
    | Some p =>
      match run (mkA (a_lns a) (a_sign a) (filter (fun q => negb (is_k k q)) (a_lks a)) (p :: a_end a) (a_out a)) during with
      | Some a => Some (mkA (a_lns a) (a_sign a) (a_lks a) (filter (fun q => negb (is_k k q)) (a_end a)) (a_out a ++ [Freed k]))
      | None => None
      end
    end
  end.
Fixpoint a_run (a : ast) (os : list op) : option ast := match os with [] => Some a | o :: r => match a_step a o with Some a => a_run a r | None => None end end.

(** What the caller sees: which links exist after a history of reports, and which report may follow
    which history. *)
Definition alive (u : list eff) (k : nat) : bool :=
  fold_left (fun b e => match e with Made j => if Nat.eqb j k then true else b | Freed j => if Nat.eqb j k then false else b | _ => b end) u false.
Definition may (u : list eff) (e : eff) : Prop :=
  match e with
  | Made k => alive u k = false
  | Freed k | Twice k => alive u k = true
  | Found _ _ _ _ (Some k) => alive u k = true
  | Found _ _ _ _ None | NoLink => True
  end.
Definition proper (u : list eff) : Prop := forall v e w, u = v ++ e :: w -> may v e.
