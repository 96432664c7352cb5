(** Vocabulary for signalling links over LAPD (C75): what the application, the line and the data
    link core are assumed to do.  Frames and their headers: LapdSpec.v. *)
From Coq Require Import List Arith Lia Bool ZArith.
From Verif Require Import Base LapdSpec SigModel.
From Verif Require E1Model LapdModel LapdProofs.
Import ListNotations.
Open Scope Z_scope.

(** data link [id] exists and was made for TEI t and SAPI s *)
Definition serves (x : side) (id : nat) (t s : Z) : Prop :=
  exists e d, In e (LapdModel.tei_list (li x)) /\ In d (LapdModel.sap_list e) /\ LapdModel.sid d = id /\ LapdModel.dl_tei d = t /\ LapdModel.dl_sapi d = s.
(** a link of the application *)
Definition has_link (x : side) (k : nat) : Prop := exists l, In l (E1Model.t_links (ts x)) /\ E1Model.lk_id l = k.

(** the application names links that exist, sends octets, keeps the timeslot for signalling and
    uses addresses of 7 and 6 bits ([B] = 128; the fields are 8 bits wide) *)
Definition app_law (B : Z) (x : side) (e : ev) : Prop :=
  match e with
  | Unlink k => has_link x k
  | Send k m => has_link x k /\ octets m
  | Config ty => ty = E1Model.TS_SIGN
  | Start t s => 0 <= t < B /\ 0 <= s < 64
  | _ => True
  end.
(** the line loses, repeats and reorders frames, but brings nothing the other end did not send *)
Definition line_law (other : side) (e : ev) : Prop :=
  match e with Frame m => In m (wire other) | _ => True end.
(** frames that carry messages of the layer above: I frames and UI frames *)
Definition carries (c : LapdModel.lctx) : Prop :=
  LapdModel.l_format c = LapdModel.FORM_I \/ LapdModel.l_format c = LapdModel.FORM_U /\ LapdModel.l_s_u c = 0.
(** the data link core calls back for data links that exist, with the address of the data link
    and room for the header; it puts into I frames what it was given to send on that data link,
    nothing into S frames, sends no UI frames (it is not asked to); and it indicates what came in
    I or UI frames of that data link *)
Definition core_law (x : side) (e : ev) : Prop :=
  match e with
  | CoreTx id c hr m =>
    (4 <= hr)%nat /\ octets m /\ exists h, LapdProofs.ctx_is c h /\ 0 <= h_cr h < 2 /\ ctrl_ok (h_ctrl h) /\ serves x id (h_tei h) (h_sapi h) /\
    match h_ctrl h with CI _ _ _ => exists t s, In (Down t s m (Some id)) (log x) | CS _ _ _ => m = [] | CU u _ => u <> 0 end
  | CoreDl id p ind t s m =>
    serves x id t s /\ (p = LapdModel.DL_DATA -> ind = true -> exists c, In (Up id c m) (log x) /\ carries c)
  | _ => True
  end.
Definition lawful (B : Z) (y : sys) (w : bool) (e : ev) : Prop :=
  app_law B (this w y) e /\ line_law (this (negb w) y) e /\ core_law (this w y) e.

(** what can have happened between two timeslots put into service with any profiles *)
Inductive hist (B : Z) : sys -> Prop :=
| hist0 n p n' p' : length (LapdModel.pk p) = 64%nat -> length (LapdModel.pk p') = 64%nat -> hist B (mkSys (side0 n p) (side0 n' p'))
| hist1 y w e y' : hist B y -> lawful B y w e -> sys_step y w e = Some y' -> hist B y'.

(** the link that answers to an address: the first created of those that exist *)
Definition answers (ls : list E1Model.link) (t s : Z) (o : option E1Model.link) : Prop :=
  let at_it l := E1Model.lk_tei l = t /\ E1Model.lk_sapi l = s in
  match o with
  | Some l => at_it l /\ exists pre post, ls = pre ++ l :: post /\ forall z, In z pre -> ~ at_it z
  | None => forall z, In z ls -> ~ at_it z
  end.
Definition about (g : sig) (o : option E1Model.link) : list eff :=
  match o with Some l => [Signal g (E1Model.lk_id l) (E1Model.lk_type l) (E1Model.lk_tei l) (E1Model.lk_sapi l)] | None => [] end.
(** a TEI the LAPD instance knows *)
Definition known (x : side) (t : Z) : Prop := exists e, In e (LapdModel.tei_list (li x)) /\ LapdModel.tei e = t.
(** a sequence of lawful events, each at one of the two ends *)
Fixpoint runs (B : Z) (y : sys) (evs : list (bool * ev)) (y' : sys) : Prop :=
  match evs with
  | [] => y' = y
  | (w, e) :: r => lawful B y w e /\ exists y1, sys_step y w e = Some y1 /\ runs B y1 r y'
  end.
