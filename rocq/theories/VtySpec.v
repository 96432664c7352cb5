(** Vocabulary for the configuration (C68). *)
From Coq Require Import List Arith Bool ZArith Ascii String.
From Verif Require Import Base VtyModel.
Import ListNotations.
Open Scope string_scope.
Open Scope Z_scope.

(** what is configured for a line: all but the socket path, descriptors and timeslots *)
Definition conf (l : line) : Z * string * Z * option string * Z * (Z * Z * Z) * option (Z * Z) * option string :=
  (l_num l, l_driver l, l_port l, l_name l, l_tmo l, (l_probes l, l_idle l, l_intvl l), l_kap l, l_pcap l).
Definition config (s : st) := map conf (lines s).
Definition globals (s : st) : string * (Z * Z) * (Z * Z) := (bound s, (o_dscp s, r_dscp s), (o_prio s, r_prio s)).
(** the line a command typed is about *)
Definition about (t : string) : option Z :=
  match words t with
  | w :: x :: r => if String.eqb w "e1_line" then rng 0 255 x else if String.eqb w "no" && String.eqb x "e1_line" then match r with n :: _ => rng 0 255 n | [] => None end else None
  | _ => None
  end.
(** descriptors open after what happened; None: one opened that is open, or used or closed that
    is not *)
Fixpoint alive (fs : list nat) (es : list eff) : option (list nat) :=
  match es with
  | [] => Some fs
  | POpen f _ :: r => if existsb (Nat.eqb f) fs then None else alive (f :: fs) r
  | PHeader f :: r => if existsb (Nat.eqb f) fs then alive fs r else None
  | PClose f :: r => if existsb (Nat.eqb f) fs then alive (filter (fun x => negb (Nat.eqb x f)) fs) r else None
  end.
(** a kernel that refuses nothing *)
Definition good_kern (k : kern) : Prop := forall n, k_open k n = true /\ k_write k n = true /\ k_create k n = true.
(** the drivers the documentation of the command names (rs232 is not among them) *)
Definition documented : list string := ["misdn"; "misdn_lapd"; "dahdi"; "e1d"; "ipa"; "unixsocket"].
(** lines created by the application use a driver that can be configured, and a number of
    uint8_t *)
Definition configurable (v : ev) : Prop := match v with Create n d => In d documented /\ 0 <= n <= 255 | _ => True end.
