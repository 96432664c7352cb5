(** Specification side of C37-C40, C50: what a user of the E1 input API can tell
    from the history of calls and their observable results, without looking at any
    library state.  A history is the list of calls with what each produced. *)
From Coq Require Import List Arith Lia Bool ZArith String.
From Verif Require Import Base E1Model.
Import ListNotations.
Open Scope Z_scope.

Definition history := list (op * list out).

(** references to line [lid] handed out minus references returned *)
Definition ref_delta (lid : nat) (e : op * list out) : Z :=
  match e with
  | (Create _ _, [Created i]) | (Clone _ _, [Created i]) => if Nat.eqb i lid then 1 else 0
  | (Get l _, _) => if Nat.eqb l lid then 1 else 0
  | (Put l _, _) => if Nat.eqb l lid then -1 else 0
  | (LinkCreate l _ _ _ _, LinkMade _ :: _) => if Nat.eqb l lid then 1 else 0
  | (LinkDestroy _, LinkGone _ l _ :: _) => if Nat.eqb l lid then -1 else 0
  | _ => 0
  end.
Definition refs (h : history) (lid : nat) : Z := fold_right (fun e acc => ref_delta lid e + acc) 0 h.

(** the line was made by a successful e1inp_line_create for that number *)
Definition created_as (h : history) (num : Z) (lid : nat) : Prop := In (Create num true, [Created lid]) h.

(** the line whose counters a line shares: itself, or that of the line it was cloned from *)
Definition family_ev (f : nat -> option nat) (e : op * list out) : nat -> option nat :=
  match e with
  | (Create _ _, [Created i]) => fun x => if Nat.eqb x i then Some i else f x
  | (Clone l _, [Created i]) => fun x => if Nat.eqb x i then f l else f x
  | _ => f
  end.
Definition family (h : history) : nat -> option nat := fold_left family_ev h (fun _ => None).

(** links made on timeslot [n] of line [lid] and not destroyed, oldest first *)
Record link_info := mkInfo { li_id : nat; li_type : sign_type; li_tei : Z; li_sapi : Z }.
Definition link_ev (lid n : nat) (acc : list link_info) (e : op * list out) : list link_info :=
  match e with
  | (LinkCreate l k ty tei sapi, LinkMade id :: _) =>
    if Nat.eqb l lid && Nat.eqb k n then acc ++ [mkInfo id ty tei sapi] else acc
  | (_, LinkGone id _ _ :: _) => filter (fun x => negb (Nat.eqb (li_id x) id)) acc
  | _ => acc
  end.
Definition links_of (h : history) (lid n : nat) : list link_info := fold_left (link_ev lid n) h [].

(** a timeslot is given another type than signalling only while it has no links *)
Fixpoint careful_from (before h : history) : Prop :=
  match h with
  | [] => True
  | e :: r =>
    match fst e with
    | Config lid n ty => ty = TS_SIGN \/ links_of before lid n = []
    | _ => True
    end /\ careful_from (before ++ [e]) r
  end.
Definition careful (h : history) : Prop := careful_from [] h.

(** messages of a signalling link: accepted, transmitted, freed at its destruction *)
Definition submitted (h : history) (id : nat) : list msg :=
  flat_map (fun e => match e with (Send i m, _) => if Nat.eqb i id then [m] else [] | _ => [] end) h.
Definition transmitted (h : history) (id : nat) : list msg :=
  flat_map (fun e => flat_map (fun o => match o with Sent i m => if Nat.eqb i id then [m] else [] | _ => [] end) (snd e)) h.
Definition discarded (h : history) (id : nat) : list msg :=
  flat_map (fun e => flat_map (fun o => match o with LinkGone i _ ms => if Nat.eqb i id then ms else [] | _ => [] end) (snd e)) h.
Definition destroyed (h : history) (id : nat) : Prop := exists o lid ms r, In (o, LinkGone id lid ms :: r) h.
Definition made (h : history) (id : nat) : Prop := exists o r, In (o, LinkMade id :: r) h.

(** raw/HDLC timeslot: accepted, and removed (transmitted, or freed by a reconfiguration) *)
Definition q_submitted (h : history) (lid n : nat) : list msg :=
  flat_map (fun e => match e with
    | (SendQueue l k _ m, _) => if Nat.eqb l lid && Nat.eqb k n then [m] else [] | _ => [] end) h.
Definition q_removed (h : history) (lid n : nat) : list msg :=
  flat_map (fun e => match e with
    | (WriteReady l k, [SentRaw m]) => if Nat.eqb l lid && Nat.eqb k n then [m] else []
    | (Config l k _, MsgsFreed ms :: _) => if Nat.eqb l lid && Nat.eqb k n then ms else []
    | _ => [] end) h.

(** type last requested for a timeslot *)
Definition type_ev (lid n : nat) (acc : ts_type) (e : op * list out) : ts_type :=
  match e with
  | (Config l k ty, _) => if Nat.eqb l lid && Nat.eqb k n then ty else acc
  | _ => acc
  end.
(** ... or that of the unconfigured line it was cloned from: none *)
Definition type_of (h : history) (lid n : nat) : ts_type := fold_left (type_ev lid n) h TS_NONE.

(** the timeslot, or that of the line it was cloned from, was once configured for
    TRAU frames or I.460 sub-channels *)
Definition taint_ev (f : nat -> nat -> bool) (e : op * list out) : nat -> nat -> bool :=
  match e with
  | (Config l k (TS_TRAU | TS_I460), _) => fun a b => (Nat.eqb a l && Nat.eqb b k) || f a b
  | (Clone l _, [Created i]) => fun a b => if Nat.eqb a i then f l b else f a b
  | _ => f
  end.
Definition was_trau (h : history) : nat -> nat -> bool := fold_left taint_ev h (fun _ _ => false).

(** links are destroyed only when no other link of their timeslot has a message waiting *)
Definition waiting (h : history) (id : nat) : Prop := submitted h id <> transmitted h id.
Fixpoint calm_from (before h : history) : Prop :=
  match h with
  | [] => True
  | e :: r =>
    match fst e with
    | LinkDestroy id => forall lid n, In id (map li_id (links_of before lid n)) ->
        forall x, In x (links_of before lid n) -> li_id x <> id -> ~ waiting before (li_id x)
    | _ => True
    end /\ calm_from (before ++ [e]) r
  end.
Definition calm (h : history) : Prop := calm_from [] h.

(** the driver reports the timeslot writable, then its delay timer expires; k times *)
Definition cycle (lid n : nat) : list op := [WriteReady lid n; Timeout lid n].
Fixpoint cycles (lid n k : nat) : list op := match k with O => [] | S k => cycle lid n ++ cycles lid n k end.
