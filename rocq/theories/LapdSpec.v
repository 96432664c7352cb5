(** What a LAPD (ITU-T Q.921) frame is and what a link table is, written
    without reference to the code. *)
From Coq Require Import List Arith Lia Bool ZArith.
From Verif Require Import Base.
Import ListNotations.
Open Scope Z_scope.

(** Q.921 control field: I frame N(S), N(R), P; S frame with its 2 function bits
    (0 RR, 1 RNR, 2 REJ); U frame with its 5 modifier bits, of which the two low
    ones are the octet's bits 3-4 and the three high ones its bits 6-8 *)
Inductive ctrl :=
| CI (ns nr p : Z)
| CS (s nr pf : Z)
| CU (u pf : Z).

Record hdr := mkHdr { h_sapi : Z; h_cr : Z; h_tei : Z; h_ctrl : ctrl }.

Definition octet (z : Z) : Prop := 0 <= z < 256.
Definition octets (l : list Z) : Prop := Forall octet l.

Definition ctrl_ok (c : ctrl) : Prop :=
  match c with
  | CI ns nr p => 0 <= ns < 128 /\ 0 <= nr < 128 /\ 0 <= p < 2
  | CS s nr pf => 0 <= s < 4 /\ 0 <= nr < 128 /\ 0 <= pf < 2
  | CU u pf => 0 <= u < 32 /\ 0 <= pf < 2
  end.
Definition hdr_ok (h : hdr) : Prop :=
  0 <= h_sapi h < 64 /\ 0 <= h_cr h < 2 /\ 0 <= h_tei h < 128 /\ ctrl_ok (h_ctrl h).

(** Q.921 figure 5 (address), table 4 (control): octets in transmission order *)
Definition long_addr (h : hdr) : list Z := [h_sapi h * 4 + h_cr h * 2; h_tei h * 2 + 1].
(** GSM 08.56-style one octet address, EA bit set *)
Definition short_addr (h : hdr) : list Z := [h_sapi h * 4 + h_cr h * 2 + 1].
Definition ctrl_octets (c : ctrl) : list Z :=
  match c with
  | CI ns nr p => [ns * 2; nr * 2 + p]
  | CS s nr pf => [s * 4 + 1; nr * 2 + pf]
  | CU u pf => [(u / 4) * 32 + pf * 16 + (u mod 4) * 4 + 3]
  end.
Definition q921 (short : bool) (h : hdr) (payload : list Z) : list Z :=
  (if short && (h_tei h =? 0) then short_addr h else long_addr h) ++ ctrl_octets (h_ctrl h) ++ payload.

(** reading a frame: [None] when it ends before its header does *)
Definition read_ctrl (l : list Z) : option (ctrl * list Z) :=
  match l with
  | [] => None
  | c :: r =>
    if Z.even c then
      match r with [] => None | d :: p => Some (CI (c / 2) (d / 2) (d mod 2), p) end
    else if Z.even (c / 2) then
      match r with [] => None | d :: p => Some (CS ((c / 4) mod 4) (d / 2) (d mod 2), p) end
    else Some (CU ((c / 32) * 4 + (c / 4) mod 4) ((c / 16) mod 2), r)
  end.
Definition read_frame (l : list Z) : option (hdr * list Z) :=
  match l with
  | [] => None
  | a :: r =>
    let sapi := a / 4 in let cr := (a / 2) mod 2 in
    if Z.odd a then
      match read_ctrl r with Some (c, p) => Some (mkHdr sapi cr 0 c, p) | None => None end
    else
      match r with
      | [] => None
      | b :: r' =>
        match read_ctrl r' with Some (c, p) => Some (mkHdr sapi cr (b / 2) c, p) | None => None end
      end
  end.

(** ** the link table: which TEIs are assigned, which data link serves (TEI, SAPI),
    the largest payload (N201) of each data link and that of links to come *)
Record table := mkTable {
  assigned : Z -> bool;
  link_at : Z -> Z -> option nat;
  next_link : nat; (* links are numbered in order of creation *)
  limit : nat -> Z;
  n201 : Z }.
Definition empty_table (n : Z) : table := mkTable (fun _ => false) (fun _ _ => None) 0 (fun _ => 0) n.
Definition assign (t : Z) (a : table) : table :=
  mkTable (fun x => (x =? t) || assigned a x) (link_at a) (next_link a) (limit a) (n201 a).
Definition open_link (t s : Z) (a : table) : table :=
  mkTable (assigned a)
    (fun x y => if (x =? t) && (y =? s) then Some (next_link a) else link_at a x y)
    (S (next_link a))
    (fun i => if Nat.eqb i (next_link a) then n201 a else limit a i) (n201 a).
Definition close_link (id : nat) (a : table) : table :=
  mkTable (assigned a)
    (fun x y => match link_at a x y with Some i => if Nat.eqb i id then None else Some i | None => None end)
    (next_link a) (limit a) (n201 a).
Definition set_n201 (n : Z) (a : table) : table :=
  mkTable (assigned a) (link_at a) (next_link a) (limit a) n.

(** what a received frame does to the table *)
Definition on_frame (msg : list Z) (a : table) : table :=
  match read_frame msg with
  | None => a
  | Some (h, p) =>
    if h_tei h =? 127 then
      (* TEI management: entity, Ri hi, Ri lo, message type (1: identity request), Ai *)
      match p with
      | _ :: _ :: _ :: mt :: ai :: _ => if mt =? 1 then assign (ai / 2) a else a
      | _ => a
      end
    else if assigned a (h_tei h) then
      match link_at a (h_tei h) (h_sapi h) with
      | Some _ => a
      | None => open_link (h_tei h) (h_sapi h) a
      end
    else a
  end.
Definition on_start (t s : Z) (a : table) : table :=
  match link_at a t s with
  | Some _ => a
  | None => open_link t s (assign t a)
  end.
(** Q.921 identity assigned: UI command on SAPI 63, TEI 127; entity 15, Ri 0,
    message type 2, Ai with its extension bit *)
Definition identity_assigned (t : Z) : list Z :=
  q921 false (mkHdr 63 1 127 (CU 0 0)) [15; 0; 0; 2; t * 2 + 1].
