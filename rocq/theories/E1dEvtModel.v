(** Model of the line events of src/input/e1d.c: e1inp_port_find and e1d_client_event_cb, and
    the interface and line the driver asks the daemon for (e1d_line_update).
    Lines are in the order of their creation (e1_input.c:614 llist_add_tail), whatever their
    driver; ports are unsigned int. *)
From Coq Require Import List Arith Lia Bool ZArith.
From Verif Require Import Base.
Import ListNotations.
Open Scope Z_scope.

Inductive drv := E1D | OTHER_DRIVER.
Record line := mkLine { ln_id : nat; ln_port : Z; ln_drv : drv }.

(** osmo-e1d proto.h enum osmo_e1dp_msg_type: the events, and the other messages *)
Inductive evt := LOS_ON | LOS_OFF | AIS_ON | AIS_OFF | RAI_ON | RAI_OFF | LOF_ON | LOF_OFF | SABITS | OTHER_MSG (n : Z).
(** include/osmocom/abis/e1_input.h:261-274 *)
Inductive sig := S_LOS | S_NOLOS | S_AIS | S_NOAIS | S_RAI | S_NORAI | S_LOF | S_NOLOF | S_SA.
(** osmo_signal_dispatch(SS_L_INPUT, sig, isd): the line and sa_bits of isd *)
Record told := mkTold { t_sig : sig; t_line : nat; t_sa : Z }.

(** e1d.c:79-89 e1inp_port_find *)
Definition e1inp_port_find (ls : list line) (port_nr : Z) : option line := find (fun l => ln_port l =? port_nr) ls.
(** e1d.c:91-143 e1d_client_event_cb; the argument of e1inp_port_find is an uint8_t; [None]: the
    octet read is not there *)
Definition e1d_client_event_cb (ls : list line) (event : evt) (intf ln : Z) (data : list Z) (len : Z) : option (list told) :=
  match e1inp_port_find ls (Z.lor (Z.shiftl intf 4) ln mod 256) with
  | None => Some []
  | Some l =>
    let dispatch s := Some [mkTold s (ln_id l) 0] in
    match event with
    | LOS_ON => dispatch S_LOS
    | LOS_OFF => dispatch S_NOLOS
    | AIS_ON => dispatch S_AIS
    | AIS_OFF => dispatch S_NOAIS
    | RAI_ON => dispatch S_RAI
    | RAI_OFF => dispatch S_NORAI
    | LOF_ON => dispatch S_LOF
    | LOF_OFF => dispatch S_NOLOF
    | SABITS => if len <? 1 then Some [] else do b <- get data 0; Some [mkTold S_SA (ln_id l) b]
    | OTHER_MSG _ => Some []
    end
  end.
(** e1d.c:667-668 of e1d_line_update: the interface and line a line is opened at *)
Definition opened_at (l : line) : Z * Z := (Z.land (Z.shiftr (ln_port l) 4) 15 mod 256, Z.land (ln_port l) 15 mod 256).

(** a sequence of events *)
Record event := mkEv { e_what : evt; e_intf : Z; e_line : Z; e_data : list Z }.
Fixpoint events (ls : list line) (es : list event) : option (list told) :=
  match es with
  | [] => Some []
  | e :: r => do a <- e1d_client_event_cb ls (e_what e) (e_intf e) (e_line e) (e_data e) (Z.of_nat (length (e_data e)));
              do b <- events ls r; Some (a ++ b)
  end.
