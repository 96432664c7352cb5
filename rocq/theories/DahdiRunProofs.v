(** Executions of the DAHDI driver model: invariants over all events. *)
From Coq Require Import List Arith Lia Bool ZArith.
From Verif Require Import Base E1Model DahdiModel DahdiSpec DahdiProofs.
Import ListNotations.
Open Scope Z_scope.

(** ** operations on one timeslot that leave its descriptor alone *)
Definition Quiet (x x' : ets) : Prop := e_type x' = e_type x /\ e_fd x' = e_fd x /\ e_reg x' = e_reg x /\ e_lapd x' = e_lapd x.
Definition rxs (es : list eff) : list eff := filter reception es.
Definition Data (l t : nat) (s s' : st) (es : list eff) : Prop := Loc nochan l t s s' es /\ Quiet (tsl s l t) (tsl s' l t) /\ rxs es = [].
Lemma quiet_refl x : Quiet x x. Proof. unfold Quiet. auto. Qed.
Lemma data_refl l t s : Shape (tsl s l t) -> Data l t s s [].
Proof. intros S. split; [now apply loc_refl|]. split; [apply quiet_refl|easy]. Qed.
Lemma rxs_app a b : rxs (a ++ b) = rxs a ++ rxs b. Proof. apply filter_app. Qed.
Lemma data_trans l t a b c e1 e2 : Data l t a b e1 -> Data l t b c e2 -> Data l t a c (e1 ++ e2).
Proof. intros (A & B & D) (A' & B' & D'). split; [eapply loc_trans; eauto|]. split; [unfold Quiet in *; intuition congruence|]. now rewrite rxs_app, D, D'. Qed.
Lemma data_emit l t s e : Shape (tsl s l t) -> idle e = true -> of_slot l t e -> reception e = false -> Data l t s (emit s e) [e].
Proof. intros S I O R. split; [now apply loc_emit|]. split; [apply quiet_refl|]. unfold rxs. cbn [filter]. now rewrite R. Qed.
Lemma data_next l t s : Shape (tsl s l t) -> Data l t s (next s) [].
Proof. intros S. split; [now apply loc_next|]. split; [apply quiet_refl|easy]. Qed.
Lemma data_wr l t s w : Shape (tsl s l t) -> Data l t s (set_ts s l t (w_wr (tsl s l t) w)) [].
Proof. intros S. split; [apply loc_set; auto; now apply shape_wr|]. split; [|easy]. unfold Quiet. esg. here_at. now esg. Qed.

Lemma exception_ok k s l t : Shape (tsl s l t) -> let es := match e_fd (tsl s l t) with Open _ | Zero _ => told (k_event k (tick s)) l t | _ => [] end in
  Data l t s (exception k s l t) es /\ tsl (exception k s l t) = tsl s /\ (tick s <= tick (exception k s l t))%nat.
Proof.
  intros S. cbv zeta. unfold exception. cbv zeta. pose proof (data_next l t s S) as N.
  assert (H : forall e1, idle e1 = true -> of_slot l t e1 -> reception e1 = false -> Data l t s (emit (next s) e1) [e1]). { intros e1 A B C. eapply (data_trans l t s (next s) _ []); [exact N|]. now apply data_emit. }
  destruct (e_fd (tsl s l t)); try (split; [now apply data_refl|]; split; [easy|lia]);
  (destruct (k_event k (tick s)) as [[]|]; cbn [told]; (split; [|split; [reflexivity|esg; lia]]); try (now apply H); try exact N;
   eapply (data_trans l t s (emit (next s) (DSig l t true)) _ [_] [_]); [now apply H|now apply data_emit]).
Qed.
Lemma want_ok s l t : Shape (tsl s l t) -> Data l t s (want_write s l t) [].
Proof. intros S. unfold want_write. destruct (e_type _); try (now apply data_refl); now apply data_wr. Qed.
(** write() of a message just taken from the queues, or of a multiplexer's octets *)
Lemma put_ok k s s1 l t i m pad : Shape (tsl s l t) -> tx_ts k s l t = (s1, Some (i, m)) ->
  let '(s2, r) := put k s1 l t i m pad in exists es, Data l t s s2 es /\ (exists b, es = b ++ [match e_fd (tsl s l t) with Open f | Zero f => match i with None => DBlock l t f m pad r | Some i => DSend l t i f m pad r end | Closed => DStray l t i m | Failed => DDrop l t i m end]) /\
    tsl s2 l t = tsl s1 l t.
Proof.
  intros S H. unfold tx_ts in H. cbv zeta in H.
  assert (Q : forall j n q, take (e_q (tsl s l t)) = Some (j, n, q) -> (e_type (tsl s l t) = TS_SIGN \/ e_type (tsl s l t) = TS_RAW \/ e_type (tsl s l t) = TS_HDLC) -> s1 = set_ts s l t (w_q (tsl s l t) q (e_tmr (tsl s l t))) -> i = Some j -> m = n ->
    let '(s2, r) := put k s1 l t i m pad in exists es, Data l t s s2 es /\ (exists b, es = b ++ [match e_fd (tsl s l t) with Open f | Zero f => match i with None => DBlock l t f m pad r | Some i => DSend l t i f m pad r end | Closed => DStray l t i m | Failed => DDrop l t i m end]) /\ tsl s2 l t = tsl s1 l t).
  { intros j n q TK TY -> -> ->. destruct (take_spec _ _ _ _ (sh_keys _ S) TK) as (K1 & K2 & K3).
    assert (SX : Shape (w_q (tsl s l t) q (e_tmr (tsl s l t)))).
    { destruct S. constructor; esg; auto; [now rewrite K1| |].
      - destruct TY as [TY|[TY|TY]]; rewrite TY in *; auto; destruct sh_q as (ms & E); rewrite E in *; cbn [keys map fst] in K1; (destruct q as [|[a b] [|]]; cbn in K1; try discriminate; injection K1 as ->; now exists b).
      - intros X. destruct (sh_tmr X) as [X1 X2]. split; [easy|]. intros ->. cbn in K1. destruct (e_q (tsl s l t)); [easy|discriminate]. }
    unfold put. cbv zeta. esg. rewrite upd2, here_refl. esg.
    assert (FIN : forall e (s2 : st), (forall l' t', tsl s2 l' t' = if here l t l' t' then w_q (tsl s l t) q (e_tmr (tsl s l t)) else tsl s l' t') -> out s2 = out s ++ [e] -> (tick s <= tick s2)%nat -> spans s2 = spans s -> port s2 = port s -> exist s2 = exist s ->
       of_slot l t e -> reception e = false -> opens [e] = [] -> advance (fd_of (e_fd (tsl s l t)), e_reg (tsl s l t)) e = Some (fd_of (e_fd (tsl s l t)), e_reg (tsl s l t)) -> (forall i ms, passes i ms e = (if Nat.eqb j i then match ms with x :: r => if list_eq_dec Z.eq_dec x n then Some r else None | [] => None end else Some ms)) -> Data l t s s2 [e]).
    { intros e s2 A B D E1 E2 E3 O R OP AD PA. split; [|split; [unfold Quiet; rewrite A, here_refl; now esg|unfold rxs; cbn [filter]; now rewrite R]]. apply (loc_by l t s s2 (w_q (tsl s l t) q (e_tmr (tsl s l t)))); auto.
      - cbn [life]. rewrite (mine_own _ _ _ O), AD. reflexivity.
      - intros i0. cbn [waiting]. rewrite (mine_own _ _ _ O), PA. esg. destruct (Nat.eqb_spec j i0) as [<-|NE]; [rewrite K2; destruct (list_eq_dec Z.eq_dec n n); easy|]. rewrite K3; auto. }
    destruct (e_fd (tsl s l t)) as [| |f|f] eqn:F; cbv beta iota; (eexists [_]; split; [|split; [exists []; cbn [app]; reflexivity|cbn [tsl]; rewrite ?upd2, ?here_refl, ?F; reflexivity]]).
    - apply FIN; try reflexivity; [intros; cbn [tsl]; rewrite upd2; unfold w_q; rewrite ?F; reflexivity|cbn [tick]; lia].
    - apply FIN; try reflexivity; [intros; cbn [tsl]; rewrite upd2; unfold w_q; rewrite ?F; reflexivity|cbn [tick]; lia].
    - apply FIN; try reflexivity; [intros; cbn [tsl]; rewrite upd2; unfold w_q; rewrite ?F; reflexivity|cbn [tick]; lia|cbn [advance fst fd_of]; now rewrite Nat.eqb_refl].
    - exfalso. now apply (sh_zero _ S f). }
  assert (MX : forall o, s1 = emit (next s) (DMuxOut l t o) -> i = None -> m = o -> let '(s2, r) := put k s1 l t i m pad in exists es, Data l t s s2 es /\ (exists b, es = b ++ [match e_fd (tsl s l t) with Open f | Zero f => match i with None => DBlock l t f m pad r | Some i => DSend l t i f m pad r end | Closed => DStray l t i m | Failed => DDrop l t i m end]) /\ tsl s2 l t = tsl s1 l t).
  { intros o -> -> ->. assert (D1 : Data l t s (emit (next s) (DMuxOut l t o)) [DMuxOut l t o]) by (eapply (data_trans l t s (next s) _ []); [now apply data_next|now apply data_emit]).
    set (s1' := emit (next s) (DMuxOut l t o)) in *. assert (E1 : tsl s1' = tsl s) by reflexivity. clearbody s1'. unfold put. cbv zeta. rewrite E1.
    assert (S1 : Shape (tsl s1' l t)) by now rewrite E1. pose proof (data_next l t s1' S1) as N.
    destruct (e_fd (tsl s l t)) as [| |f|f] eqn:F; eexists; (split; [|split; [exists [DMuxOut l t o]; reflexivity|cbn [tsl emit next]; now rewrite E1]]); cbn [app].
    - eapply (data_trans l t s s1' _ [_] [_]); [exact D1|]. eapply (data_trans l t s1' (next s1') _ []); [exact N|now apply data_emit].
    - eapply (data_trans l t s s1' _ [_] [_]); [exact D1|]. eapply (data_trans l t s1' (next s1') _ []); [exact N|now apply data_emit].
    - eapply (data_trans l t s s1' _ [_] [_]); [exact D1|]. split; [|split; [apply quiet_refl|easy]]. apply (loc_by l t s1' _ (tsl s1' l t)); try (esg; (easy || lia)).
      + intros l' t'. esg. pose proof (here_spec l t l' t') as X. destruct (here l t l' t'); [destruct X as [-> ->]|]; easy.
      + repeat constructor.
      + cbn [life]. rewrite mine_own by reflexivity. cbn [advance fst]. rewrite E1, F. cbn [fd_of]. now rewrite Nat.eqb_refl.
      + intros i0. cbn [waiting]. now rewrite mine_own by reflexivity.
    - exfalso. now apply (sh_zero _ S f). }
  destruct (e_type (tsl s l t)) eqn:TY; try discriminate;
  first [ injection H as H1 H2 H3; eapply MX; eauto; fail
        | destruct (take (e_q (tsl s l t))) as [[[j n] q]|] eqn:TK; [|discriminate]; injection H as H1 H2 H3; apply (Q j n q); auto ].
Qed.
Lemma tx_none k s s1 l t : tx_ts k s l t = (s1, None) -> s1 = s.
Proof. unfold tx_ts. cbv zeta. destruct (e_type _); try (intros H; injection H as H; now subst); try discriminate; destruct (take _) as [[[? ?] ?]|]; intros H; try discriminate; injection H as H; now subst. Qed.
Lemma hdlc_write_ok k s l t : Shape (tsl s l t) -> exists es, Data l t s (hdlc_write k s l t) es.
Proof.
  intros S. unfold hdlc_write. destruct (tx_ts k s l t) as [s1 [[i m]|]] eqn:TX.
  - pose proof (put_ok k s s1 l t i m (pad2 k s1) S TX) as P. destruct (put k s1 l t i m (pad2 k s1)) as [s2 r]. destruct P as (es & D & _). destruct (r =? -1); [|eauto].
    destruct (exception_ok k s2 l t (lo_shape _ _ _ _ _ _ (proj1 D))) as (X & _). eexists. eapply data_trans; eauto.
  - apply tx_none in TX as ->. exists []. now apply data_wr.
Qed.
Lemma raw_write_ok k s l t : Shape (tsl s l t) -> exists es, Data l t s (raw_write k s l t) es.
Proof.
  intros S. unfold raw_write. destruct (tx_ts k s l t) as [s1 [[i m]|]] eqn:TX.
  - pose proof (put_ok k s s1 l t i m [] S TX) as P. destruct (put k s1 l t i m []) as [s2 r]. destruct P as (es & D & _). cbn [fst]. eauto.
  - apply tx_none in TX as ->. exists []. now apply data_wr.
Qed.
Lemma block_ok k s l t m pad : Shape (tsl s l t) -> exists e, Data l t s (fst (put k s l t None m pad)) [e] /\ e = match e_fd (tsl s l t) with Open f | Zero f => DBlock l t f m pad (k_write k (tick s)) | Closed => DStray l t None m | Failed => DDrop l t None m end.
Proof.
  intros S. pose proof (data_next l t s S) as N. unfold put. cbv zeta. destruct (e_fd (tsl s l t)) as [| |f|f] eqn:F; cbn [fst]; eexists; (split; [|reflexivity]).
  - eapply (data_trans l t s (next s) _ []); [exact N|now apply data_emit].
  - eapply (data_trans l t s (next s) _ []); [exact N|now apply data_emit].
  - split; [|split; [apply quiet_refl|easy]]. apply (loc_by l t s _ (tsl s l t)); try (esg; (easy || lia)).
    + intros l' t'. esg. pose proof (here_spec l t l' t') as X. destruct (here l t l' t'); [destruct X as [-> ->]|]; easy.
    + repeat constructor.
    + cbn [life]. rewrite mine_own by reflexivity. cbn [advance fst]. rewrite F. cbn [fd_of]. now rewrite Nat.eqb_refl.
    + intros i0. cbn [waiting]. now rewrite mine_own by reflexivity.
  - exfalso. now apply (sh_zero _ S f).
Qed.
Lemma trau_write_ok k s l t : Shape (tsl s l t) -> match trau_write k s l t with Ok s' => exists es, Data l t s s' es | Bad r => r = MuxGone /\ e_type (tsl s l t) = TS_I460 end.
Proof.
  intros S. unfold trau_write. cbv zeta. destruct (type_eqb_spec (e_type (tsl s l t)) TS_I460); [easy|]. set (s1 := emit (next s) _). assert (D1 : Data l t s s1 [DMuxOut l t (k_mux k (tick s))]) by (eapply (data_trans l t s (next s) _ []); [now apply data_next|now apply data_emit]).
  destruct (block_ok k s1 l t (map rev8 (k_mux k (tick s))) [] (lo_shape _ _ _ _ _ _ (proj1 D1))) as (e & D2 & _). eexists. eapply data_trans; eauto.
Qed.
Lemma lapd_write_ok k s l t m : Shape (tsl s l t) -> exists es, Data l t s (lapd_write k s l t m) es.
Proof.
  intros S. unfold lapd_write. cbv zeta. destruct (e_fd (tsl s l t)) as [| |f|f] eqn:F.
  - eexists. now apply data_emit.
  - eexists. now apply data_emit.
  - set (s1 := emit _ _). assert (D1 : Data l t s s1 [DLapdWr l t f m (pad2 k s) (k_write k (tick s))]).
    { split; [|split; [apply quiet_refl|easy]]. apply (loc_by l t s _ (tsl s l t)); try (subst s1; esg; (easy || lia)).
      - intros l' t'. subst s1. esg. pose proof (here_spec l t l' t') as X. destruct (here l t l' t'); [destruct X as [-> ->]|]; easy.
      - repeat constructor.
      - cbn [life]. rewrite mine_own by reflexivity. cbn [advance fst]. rewrite F. cbn [fd_of]. now rewrite Nat.eqb_refl.
      - intros i0. cbn [waiting]. now rewrite mine_own by reflexivity. }
    destruct (_ =? -1); [|eauto]. destruct (exception_ok k s1 l t (lo_shape _ _ _ _ _ _ (proj1 D1))) as (X & _). eexists. eapply data_trans; eauto.
  - exfalso. now apply (sh_zero _ S f).
Qed.
Lemma sign_write_ok k s l t : Shape (tsl s l t) -> match sign_write k s l t with Ok s' => exists es, Data l t s s' es | Bad r => r = NullLapd /\ e_type (tsl s l t) = TS_SIGN /\ e_lapd (tsl s l t) = false \/ r = BadLink /\ e_type (tsl s l t) <> TS_SIGN end.
Proof.
  intros S. unfold sign_write. cbv zeta. pose proof (data_wr l t s false S) as D0. set (s0 := set_ts s l t _) in *.
  assert (Q0 : Quiet (tsl s l t) (tsl s0 l t)) by apply D0. assert (S0 : Shape (tsl s0 l t)) by apply D0. clearbody s0. destruct Q0 as (Q1 & Q2 & Q3 & Q4).
  destruct (tx_ts k s0 l t) as [s1 [[i m]|]] eqn:TX.
  - unfold tx_ts in TX. cbv zeta in TX. rewrite Q1 in TX. destruct (e_type (tsl s l t)) eqn:TY; try discriminate.
    + destruct (take (e_q (tsl s0 l t))) as [[[j n] q]|] eqn:TK; [|discriminate]. injection TX as <- <- <-. esg. here_at. esg. rewrite Q1, Q4.
      destruct (e_lapd (tsl s l t)) eqn:LA; [|left; auto]. destruct (take_spec _ _ _ _ (sh_keys _ S0) TK) as (K1 & K2 & K3). assert (NE : q <> []).
      { intros ->. cbn in K1. destruct (e_q (tsl s0 l t)); [discriminate|]. discriminate. }
      eexists. eapply data_trans; [exact D0|]. split; [|split; [unfold Quiet; cbn [tsl]; here_at; esg; rewrite ?here_refl; cbn; auto|]].
      * set (x := mkE (e_type (tsl s0 l t)) (e_fd (tsl s0 l t)) (e_reg (tsl s0 l t)) (e_wr (tsl s0 l t)) (e_lapd (tsl s0 l t)) q true). apply (loc_by l t s0 _ x [DLapdTx l t j n]); try (cbn; easy).
        -- subst x. destruct S0. constructor; cbn [e_fd e_reg e_lapd e_q e_type e_tmr]; auto; [now rewrite K1|now rewrite Q1].
        -- intros l' t'. cbn [tsl]. rewrite upd2. pose proof (here_spec l t l' t') as HS. destruct (here l t l' t') eqn:HH; [subst x; rewrite ?upd2, ?here_refl, Q1, Q4; reflexivity|rewrite upd2, HH; reflexivity].
        -- repeat constructor.
        -- cbn [life]. rewrite mine_own by reflexivity. reflexivity.
        -- intros i0. cbn [waiting]. rewrite mine_own by reflexivity. cbn [passes]. subst x. cbn [e_q]. destruct (Nat.eqb_spec j i0) as [<-|NE2]; [rewrite K2; destruct (list_eq_dec Z.eq_dec n n); easy|]. rewrite K3; auto.
      * easy.
    + injection TX as <- <- <-. cbn [tsl emit next]. rewrite Q1. now right.
    + destruct (take (e_q (tsl s0 l t))) as [[[j n] q]|] eqn:TK; [|discriminate]. injection TX as <- <- <-. esg. here_at. esg. rewrite Q1. now right.
    + destruct (take (e_q (tsl s0 l t))) as [[[j n] q]|] eqn:TK; [|discriminate]. injection TX as <- <- <-. esg. here_at. esg. rewrite Q1. now right.
    + injection TX as <- <- <-. cbn [tsl emit next]. rewrite Q1. now right.
  - apply tx_none in TX as ->. eauto.
Qed.

(** ** the application *)
Definition Mute (s s' : st) : Prop := exists es, out s' = out s ++ es /\ Forall (fun e => reception e = false) es.
Lemma mute_refl s : Mute s s. Proof. exists []. rewrite app_nil_r. auto. Qed.
Lemma mute_same s s' : out s' = out s -> Mute s s'. Proof. intros E. exists []. rewrite app_nil_r. auto. Qed.
Lemma mute_one s s' e : out s' = out s ++ [e] -> reception e = false -> Mute s s'. Proof. intros E N. exists [e]. auto. Qed.
Lemma mute_trans a b c : Mute a b -> Mute b c -> Mute a c.
Proof. intros (x & A & B) (y & C & D). exists (x ++ y). rewrite C, A, app_assoc. split; [easy|]. apply Forall_app. auto. Qed.
Lemma rxs_none es : rxs es = [] -> Forall (fun e => reception e = false) es.
Proof. unfold rxs. induction es as [|e r IH]; [constructor|]. cbn [filter]. destruct (reception e) eqn:E; [discriminate|]. constructor; auto. Qed.
Lemma data_mute l t s s' es : Data l t s s' es -> Mute s s'.
Proof. intros (A & _ & B). exists es. split; [apply A|now apply rxs_none]. Qed.
Lemma unreg_mute s l t : Mute s (unreg_ts s l t).
Proof. unfold unreg_ts. cbv zeta. destruct (e_fd _); try apply mute_refl; (destruct (e_reg _); [eapply mute_one; [reflexivity|easy]|apply mute_refl]). Qed.
Lemma none_mute s l t : Mute s (none_ts s l t).
Proof. unfold none_ts. cbv zeta. destruct (e_fd _); try (now apply mute_same); eapply mute_one; reflexivity. Qed.
Lemma open_mute k s l t c : Mute s (open_ts k s l t c).
Proof. unfold open_ts. cbv zeta. destruct (e_fd _); try apply mute_refl; (destruct (k_open _ _); [now apply mute_same|eapply mute_one; reflexivity..]). Qed.
Lemma ready_mute k s l t f : Mute s (fst (ready_ts k s l t f)).
Proof.
  unfold ready_ts. cbv zeta. set (s1 := if sigchan _ then _ else s). assert (M1 : Mute s s1) by (subst s1; destruct (sigchan _); now apply mute_same). clearbody s1.
  destruct (negb _); [exact M1|]. set (s2 := emit _ _). assert (M2 : Mute s s2) by (eapply mute_trans; [exact M1|eapply mute_one; reflexivity]). clearbody s2.
  set (s3 := if type_eqb _ _ then _ else _). assert (M3 : Mute s s3) by (eapply mute_trans; [exact M2|]; subst s3; destruct (type_eqb _ _); now apply mute_same). clearbody s3.
  destruct (k_reg _ _); cbn [fst]; [|exact M3]. eapply mute_trans; [exact M3|eapply mute_one; reflexivity].
Qed.
Lemma update_ts_mute k s l t c : Mute s (fst (update_ts k s l t c)).
Proof.
  unfold update_ts. cbv zeta. pose proof (unreg_mute s l t) as M1. set (s1 := unreg_ts s l t) in *. clearbody s1. destruct (type_eqb _ _); cbn [fst]; [eapply mute_trans; [exact M1|apply none_mute]|].
  set (s2 := if sigchan _ then s1 else _). assert (M2 : Mute s s2) by (eapply mute_trans; [exact M1|]; subst s2; destruct (sigchan _); now apply mute_same). clearbody s2.
  pose proof (mute_trans _ _ _ M2 (open_mute k s2 l t c)) as M3. set (s3 := open_ts k s2 l t c) in *. clearbody s3. destruct (e_fd _); cbn [fst]; try exact M3; (eapply mute_trans; [exact M3|apply ready_mute]).
Qed.
Lemma loop_mute k l b ts : forall s, match update_loop k l b ts s with Ok (s', _) => Mute s s' | Bad _ => True end.
Proof.
  induction ts as [|t r IH]; intros s; cbn [update_loop]; [apply mute_refl|]. destruct (_ <=? _)%nat; [easy|]. pose proof (update_ts_mute k s l t (b + t)) as M. destruct (update_ts k s l t (b + t)) as [s1 [rc|]]; cbn [fst] in M; [exact M|].
  specialize (IH s1). destruct (update_loop k l b r s1) as [[s2 rc]|]; [|easy]. eapply mute_trans; eauto.
Qed.
Lemma reread_out k s : out (reread k s) = out s.
Proof. unfold reread. destruct (k_ctl _ _); reflexivity. Qed.
Lemma line_update_mute k s l : match line_update k s l with Ok (s', _) => Mute s s' | Bad _ => True end.
Proof.
  unfold line_update. cbv zeta. set (s1 := reread k _). assert (M : Mute s s1) by (apply (mute_one s s1 (DUpdate l)); [subst s1; now rewrite reread_out|easy]). clearbody s1. destruct (_ <=? _)%nat; [easy|]. destruct (spans s1 _) as [[b n]|]; [|exact M].
  pose proof (loop_mute k l b (seq 0 n) s1) as L. destruct (update_loop _ _ _ _ _) as [[s2 rc]|]; [|easy]. eapply mute_trans; eauto.
Qed.

Lemma config_loc s l t ty : Shape (tsl s l t) -> match config s l t ty with
  | Ok s' => (exists es, Loc nochan l t s s' es) /\ Mute s s' /\ e_type (tsl s' l t) = ty /\ e_fd (tsl s' l t) = e_fd (tsl s l t) /\ e_lapd (tsl s' l t) = e_lapd (tsl s l t)
  | Bad r => r = LinksLeft /\ e_type (tsl s l t) = TS_SIGN /\ e_q (tsl s l t) <> [] end.
Proof.
  intros S. unfold config. cbv zeta. destruct (type_eqb_spec (e_type (tsl s l t)) ty) as [E|NE].
  { split; [exists []; now apply loc_refl|]. split; [apply mute_refl|]. auto. }
  destruct (type_eqb_spec (e_type (tsl s l t)) TS_SIGN) as [ES|NS]; cbn [andb].
  - destruct (e_q (tsl s l t)) as [|x r] eqn:Q; cbn [negb]; [|split; [easy|split; [easy|discriminate]]].
    split; [|split; [eapply mute_one; reflexivity|esg; here_at; now esg]]. exists [DConf l t ty]. apply (loc_by l t s _ (mkE ty (e_fd (tsl s l t)) (e_reg (tsl s l t)) (e_wr (tsl s l t)) (e_lapd (tsl s l t)) (queues0 ty) (e_tmr (tsl s l t)))); try easy.
    + destruct S. constructor; cbn [e_type e_fd e_reg e_wr e_lapd e_q e_tmr]; auto.
      * destruct ty; cbn; repeat constructor; easy.
      * destruct ty; cbn; try easy; now exists [].
      * intros T. destruct (sh_tmr T). congruence.
    + intros. esg. apply upd2.
    + repeat constructor.
    + cbn [life]. now rewrite mine_own by reflexivity.
    + intros i. cbn [waiting]. rewrite mine_own by reflexivity. cbn [passes]. destruct ty; cbn; try reflexivity; now destruct i.
  - split; [|split; [eapply mute_one; reflexivity|esg; here_at; now esg]]. exists [DConf l t ty]. apply (loc_by l t s _ (mkE ty (e_fd (tsl s l t)) (e_reg (tsl s l t)) (e_wr (tsl s l t)) (e_lapd (tsl s l t)) (queues0 ty) (e_tmr (tsl s l t)))); try easy.
    + destruct S. constructor; cbn [e_type e_fd e_reg e_wr e_lapd e_q e_tmr]; auto.
      * destruct ty; cbn; repeat constructor; easy.
      * destruct ty; cbn; try easy; now exists [].
      * intros T. destruct (sh_tmr T). congruence.
    + intros. esg. apply upd2.
    + repeat constructor.
    + cbn [life]. now rewrite mine_own by reflexivity.
    + intros i. cbn [waiting]. rewrite mine_own by reflexivity. cbn [passes]. destruct ty; cbn; try reflexivity; now destruct i.
Qed.
Lemma link_data s l t i : Shape (tsl s l t) -> exists es, Data l t s (link s l t i) es.
Proof.
  intros S. unfold link. cbv zeta. destruct (type_eqb_spec (e_type (tsl s l t)) TS_SIGN) as [TY|]; cbn [andb]; [|eexists; now apply data_refl]. destruct (has i (e_q (tsl s l t))) eqn:HA; cbn [negb]; [eexists; now apply data_refl|].
  exists [DLink l t i]. split; [|split; [unfold Quiet; esg; here_at; now esg|easy]]. apply (loc_by l t s _ (w_q (tsl s l t) (e_q (tsl s l t) ++ [(i, [])]) (e_tmr (tsl s l t)))); try easy.
  - destruct S. constructor; esg; auto.
    + unfold keys. rewrite map_app. cbn [map fst]. apply nodup_app; [easy|repeat constructor; easy|]. intros x X [Y|[]]. subst x. apply has_in in X. congruence.
    + now rewrite TY.
    + intros T. split; [easy|]. now destruct (e_q (tsl s l t)).
  - intros. esg. apply upd2.
  - repeat constructor.
  - cbn [life]. now rewrite mine_own by reflexivity.
  - intros j. cbn [waiting]. rewrite mine_own by reflexivity. cbn [passes]. esg. now rewrite snoc_queue.
Qed.
Lemma unlink_data s l t i : Shape (tsl s l t) -> exists es, Data l t s (unlink s l t i) es.
Proof.
  intros S. unfold unlink. cbv zeta. destruct (type_eqb_spec (e_type (tsl s l t)) TS_SIGN) as [TY|]; cbn [andb]; [|eexists; now apply data_refl]. destruct (has i (e_q (tsl s l t))) eqn:HA; [|eexists; now apply data_refl].
  exists [DUnlink l t i]. split; [|split; [unfold Quiet; esg; here_at; now esg|easy]]. apply (loc_by l t s _ (w_q (tsl s l t) (filter (fun p => negb (Nat.eqb (fst p) i)) (e_q (tsl s l t))) false)); try easy.
  - destruct S. constructor; esg; auto.
    + now apply filter_keys.
    + now rewrite TY.
    + discriminate.
  - intros. esg. apply upd2.
  - repeat constructor.
  - cbn [life]. now rewrite mine_own by reflexivity.
  - intros j. cbn [waiting]. rewrite mine_own by reflexivity. cbn [passes]. esg. rewrite filter_queue, Nat.eqb_sym. now destruct (Nat.eqb j i).
Qed.
Lemma acc_data s l t i m w : Shape (tsl s l t) -> has i (e_q (tsl s l t)) = true -> e_type (tsl s l t) = TS_SIGN \/ e_type (tsl s l t) = TS_RAW \/ e_type (tsl s l t) = TS_HDLC ->
  Data l t s (emit (set_ts s l t (w_wr (w_q (tsl s l t) (append i m (e_q (tsl s l t))) (e_tmr (tsl s l t))) w)) (DAcc l t i m)) [DAcc l t i m].
Proof.
  intros S HA TY. split; [|split; [unfold Quiet; esg; here_at; now esg|easy]]. apply (loc_by l t s _ (w_wr (w_q (tsl s l t) (append i m (e_q (tsl s l t))) (e_tmr (tsl s l t))) w)); try easy.
  - destruct S. constructor; esg; auto.
    + now rewrite append_keys.
    + destruct TY as [TY|[TY|TY]]; rewrite TY in *; auto; destruct sh_q as (ms & E); rewrite E; cbn [append]; destruct (Nat.eqb 0 i); eauto.
    + intros T. destruct (sh_tmr T) as [A B]. split; [easy|]. destruct (e_q (tsl s l t)) as [|[a b] r]; [easy|]. cbn [append]. now destruct (Nat.eqb a i).
  - intros. esg. apply upd2.
  - repeat constructor.
  - cbn [life]. now rewrite mine_own by reflexivity.
  - intros j. cbn [waiting]. rewrite mine_own by reflexivity. cbn [passes]. esg. rewrite append_queue, HA, Nat.eqb_sym, andb_true_r. now destruct (Nat.eqb j i).
Qed.
Lemma send_data s l t i m : Shape (tsl s l t) -> exists es, Data l t s (send s l t i m) es.
Proof.
  intros S. unfold send. cbv zeta. destruct (has i (e_q (tsl s l t))) eqn:HA; cbn [negb]; [|eexists; now apply data_refl].
  destruct (e_type (tsl s l t)) eqn:TY; try (eexists; now apply data_refl).
  - pose proof (acc_data s l t i m (e_wr (tsl s l t)) S HA (or_introl TY)) as D. change (w_wr (w_q (tsl s l t) (append i m (e_q (tsl s l t))) (e_tmr (tsl s l t))) (e_wr (tsl s l t))) with (w_q (tsl s l t) (append i m (e_q (tsl s l t))) (e_tmr (tsl s l t))) in D.
    set (s1 := emit _ _) in *. clearbody s1. destruct (e_tmr (tsl s l t)); [eauto|]. eexists. eapply data_trans; [exact D|]. apply want_ok, D.
  - pose proof (want_ok s l t S) as D. unfold want_write in *. rewrite TY in *. set (s1 := set_ts s l t _) in *. assert (E : tsl s1 l t = w_wr (tsl s l t) true) by (subst s1; esg; now here_at). assert (S1 : Shape (tsl s1 l t)) by apply D. clearbody s1.
    pose proof (acc_data s1 l t i m true S1) as A. rewrite E in A at 1 2 3 4. specialize (A HA). eexists. eapply data_trans; [exact D|]. 
    replace (w_q (tsl s1 l t) (append i m (e_q (tsl s l t))) (e_tmr (tsl s l t))) with (w_wr (w_q (tsl s1 l t) (append i m (e_q (tsl s1 l t))) (e_tmr (tsl s1 l t))) true) by (rewrite E; reflexivity). apply A. right. left. exact TY.
  - pose proof (want_ok s l t S) as D. unfold want_write in *. rewrite TY in *. set (s1 := set_ts s l t _) in *. assert (E : tsl s1 l t = w_wr (tsl s l t) true) by (subst s1; esg; now here_at). assert (S1 : Shape (tsl s1 l t)) by apply D. clearbody s1.
    pose proof (acc_data s1 l t i m true S1) as A. rewrite E in A at 1 2 3 4. specialize (A HA). eexists. eapply data_trans; [exact D|]. 
    replace (w_q (tsl s1 l t) (append i m (e_q (tsl s l t))) (e_tmr (tsl s l t))) with (w_wr (w_q (tsl s1 l t) (append i m (e_q (tsl s1 l t))) (e_tmr (tsl s1 l t))) true) by (rewrite E; reflexivity). apply A. right. right. exact TY.
Qed.
Record Ran (k : kern) (s s' : st) : Prop := { r_inv : Inv k s'; r_exist : exist s' = exist s; r_mute : Mute s s' }.
Lemma ran_refl k s : Inv k s -> Ran k s s. Proof. intros I. split; [easy|easy|apply mute_refl]. Qed.
Lemma ran_trans k a b c : Ran k a b -> Ran k b c -> Ran k a c.
Proof. intros A B. split; [apply B|rewrite (r_exist _ _ _ B); apply A|eapply mute_trans; [apply A|apply B]]. Qed.
Lemma data_inv k l t s s' es : Inv k s -> valid s l t = true -> Data l t s s' es -> Inv k s'.
Proof. intros I V D. eapply inv_loc; [exact I|apply D|exact V|]. intros c []. Qed.
Lemma data_ran k l t s s' es : Inv k s -> valid s l t = true -> Data l t s s' es -> Ran k s s'.
Proof. intros I V D. split; [eapply data_inv; eauto|apply (lo_cfg _ _ _ _ _ _ (proj1 D))|eapply data_mute; eauto]. Qed.
Lemma inv_port k s p : Inv k s -> Inv k (mkS (spans s) p (exist s) (tsl s) (tick s) (out s)).
Proof. intros I. constructor; apply I. Qed.
(** how a command can end an execution *)
Definition fell (k : kern) (s : st) (c : cmd) (r : why) : Prop :=
  match c with
  | CConfig l t ty => r = LinksLeft /\ e_type (tsl s l t) = TS_SIGN /\ e_q (tsl s l t) <> []
  | CUpdate l => r = OutOfTable /\ (k_max k <= port s l)%nat \/ r = BeyondSlots /\ exists m n, spans_of k m (port s l) = Some n /\ (32 < n)%nat
  | _ => False
  end.
Lemma exec_ran k s c : no_zero k -> Inv k s -> match exec k s c with Ok s' => Ran k s s' | Bad r => fell k s c r end.
Proof.
  intros NZ I. destruct c as [l t ty|l p|l|l t i|l t i|l t i m]; cbn [exec].
  - destruct (valid s l t) eqn:V; [|now apply ran_refl]. pose proof (config_loc s l t ty (v_shape k s I l t)) as C. destruct (config s l t ty) as [s'|r]; [|exact C].
    destruct C as ((es & L) & M & _). split; [|apply (lo_cfg _ _ _ _ _ _ L)|exact M]. eapply inv_loc; [exact I|exact L|exact V|]. intros c [].
  - destruct (exist s l); [|now apply ran_refl]. split; [now apply inv_port|easy|now apply mute_same].
  - destruct (exist s l) eqn:EX; [|now apply ran_refl]. pose proof (update_ok k l s NZ I EX) as U. pose proof (line_update_mute k s l) as M. destruct (line_update k s l) as [[s' rc]|r]; [|exact U]. destruct U as ((I' & _ & E & _) & _ & _). cbn [fst snd].
    split; [now apply inv_emit|exact E|]. eapply mute_trans; [exact M|eapply mute_one; reflexivity].
  - destruct (valid s l t) eqn:V; [|now apply ran_refl]. destruct (link_data s l t i (v_shape k s I l t)) as (es & D). eapply data_ran; eauto.
  - destruct (valid s l t) eqn:V; [|now apply ran_refl]. destruct (unlink_data s l t i (v_shape k s I l t)) as (es & D). eapply data_ran; eauto.
  - destruct (valid s l t) eqn:V; [|now apply ran_refl]. destruct (send_data s l t i m (v_shape k s I l t)) as (es & D). eapply data_ran; eauto.
Qed.
Lemma execs_ran k cs : no_zero k -> forall s, Inv k s -> match execs k cs s with Ok s' => Ran k s s' | Bad r => exists c s1, In c cs /\ Inv k s1 /\ fell k s1 c r end.
Proof.
  intros NZ. induction cs as [|c r IH]; intros s I; cbn [execs]; [now apply ran_refl|]. pose proof (exec_ran k s c NZ I) as E. destruct (exec k s c) as [s1|q]; [|exists c, s; split; [now left|easy]].
  specialize (IH s1 (r_inv _ _ _ E)). destruct (execs k r s1) as [s2|q]; [eapply ran_trans; eauto|]. destruct IH as (c' & s' & A & B). exists c', s'. split; [now right|exact B].
Qed.

(** ** events *)
Lemma valid_reg k s l t : Inv k s -> tsl s l t <> ets0 -> valid s l t = true.
Proof. intros I H. destruct (valid s l t) eqn:V; [easy|]. apply (v_def k s I) in V. contradiction. Qed.
Lemma inv_rx k s l t e : Inv k s -> valid s l t = true -> idle e = true -> of_slot l t e -> Inv k (emit s e).
Proof. intros I V D O. eapply inv_loc; [exact I|apply loc_emit; eauto; apply I|exact V|]. intros c []. Qed.
Definition Kept (k : kern) (s s' : st) : Prop := Inv k s' /\ exist s' = exist s.
Lemma ran_kept k s s' : Ran k s s' -> Kept k s s'. Proof. intros R. split; apply R. Qed.
Lemma kept_trans k a b c : Kept k a b -> Kept k b c -> Kept k a c.
Proof. intros [A B] [C D]. split; [easy|congruence]. Qed.
Lemma kept_valid k s s' l t : Kept k s s' -> valid s' l t = valid s l t.
Proof. intros [_ E]. unfold valid. now rewrite E. Qed.
Lemma frame_read_kept k s l t b r act : no_zero k -> Inv k s -> valid s l t = true -> match frame_read k s l t b r act with Ok s' => Kept k s s' | Bad _ => True end.
Proof.
  intros NZ I V. unfold frame_read. destruct r as [|o].
  - destruct (exception_ok k s l t (v_shape k s I l t)) as (D & _). apply ran_kept. eapply data_ran; eauto.
  - cbv zeta. destruct (_ <=? _)%nat; [split; easy|]. set (m := firstn _ _). clearbody m.
    assert (R : forall e, idle e = true -> of_slot l t e -> match execs k act (emit s e) with Ok s' => Kept k s s' | Bad _ => True end).
    { intros e A B. pose proof (execs_ran k act NZ (emit s e) (inv_rx k s l t e I V A B)) as E. destruct (execs k act (emit s e)); [|easy]. destruct E as [E1 E2 _]. split; [easy|exact E2]. }
    destruct b; [destruct (e_lapd _); [|easy]|]; now apply R.
Qed.
Lemma block_read_kept k s l t b r act : no_zero k -> Inv k s -> valid s l t = true -> match block_read k s l t b r act with Ok s' => Kept k s s' | Bad _ => True end.
Proof.
  intros NZ I V. unfold block_read. destruct r as [|o]; [split; easy|]. cbv zeta. destruct (negb _); [split; easy|]. set (e := DRx l t _).
  pose proof (execs_ran k act NZ (emit s e) (inv_rx k s l t e I V eq_refl eq_refl)) as E. destruct (execs k act (emit s e)) as [s1|]; [|easy]. destruct E as [E1 E2 _].
  assert (K1 : Kept k s s1) by (split; [easy|exact E2]). assert (V1 : valid s1 l t = true) by (rewrite (kept_valid k s s1); easy). destruct b.
  - pose proof (trau_write_ok k s1 l t (v_shape k s1 E1 l t)) as W. destruct (trau_write k s1 l t); [|easy]. destruct W as (es & W). eapply kept_trans; [exact K1|]. apply ran_kept. eapply data_ran; eauto.
  - destruct (raw_write_ok k s1 l t (v_shape k s1 E1 l t)) as (es & W). eapply kept_trans; [exact K1|]. apply ran_kept. eapply data_ran; eauto.
Qed.
Lemma sign_write_kept k s l t : Inv k s -> valid s l t = true -> match sign_write k s l t with Ok s' => Kept k s s' | Bad _ => True end.
Proof. intros I V. pose proof (sign_write_ok k s l t (v_shape k s I l t)) as W. destruct (sign_write k s l t); [|easy]. destruct W as (es & W). apply ran_kept. eapply data_ran; eauto. Qed.
Lemma trau_write_kept k s l t : Inv k s -> valid s l t = true -> match trau_write k s l t with Ok s' => Kept k s s' | Bad _ => True end.
Proof. intros I V. pose proof (trau_write_ok k s l t (v_shape k s I l t)) as W. destruct (trau_write k s l t); [|easy]. destruct W as (es & W). apply ran_kept. eapply data_ran; eauto. Qed.
Lemma step_kept k s v : no_zero k -> Inv k s -> match step k s v with Ok s' => Inv k s' | Bad _ => True end.
Proof.
  intros NZ I. destruct v as [l p|cs|l t x r w act|l t|l t m]; cbn [step].
  - destruct (exist s l) eqn:EX; [exact I|]. constructor; try (exact (v_j k s I) || exact (v_shape k s I) || exact (v_open k s I) || exact (v_spans k s I)).
    + intros l' t' V. apply (v_def k s I). unfold valid in *. cbn [exist] in V. unfold upd in V. destruct (Nat.eqb_spec l' l) as [->|]; [now rewrite EX|easy].
    + intros l' t' c f H. destruct (v_chan k s I _ _ _ _ H) as [A B]. split; [|easy]. unfold valid in *. cbn [exist]. unfold upd. destruct (Nat.eqb l' l); [|easy]. apply andb_true_iff in A. apply A.
  - pose proof (execs_ran k cs NZ s I) as E. destruct (execs k cs s); [apply E|easy].
  - destruct (e_reg (tsl s l t)) eqn:G; [|exact I]. assert (V : valid s l t = true) by (eapply valid_reg; [exact I|]; intros X; rewrite X in G; discriminate).
    assert (P : forall (rf : st -> rd -> res st) (wf : st -> res st), (forall s r, Inv k s -> valid s l t = true -> match rf s r with Ok s' => Kept k s s' | Bad _ => True end) -> (forall s, Inv k s -> valid s l t = true -> match wf s with Ok s' => Kept k s s' | Bad _ => True end) -> forall w : bool,
      match (let s0 := if x then exception k s l t else s in try s1 <- match r with Some r => rf s0 r | None => Ok s0 end; if w then wf s1 else Ok s1) with Ok s' => Inv k s' | Bad _ => True end).
    { intros rf wf RF WF w'. cbv zeta. set (s0 := if x then _ else s). assert (K0 : Kept k s s0). { subst s0. destruct x; [|split; easy]. destruct (exception_ok k s l t (v_shape k s I l t)) as (D & _). apply ran_kept. eapply data_ran; eauto. }
      clearbody s0. assert (V0 : valid s0 l t = true) by (rewrite (kept_valid k s s0); easy). destruct K0 as [I0 _].
      assert (R : match match r with Some r => rf s0 r | None => Ok s0 end with Ok s' => Kept k s0 s' | Bad _ => True end) by (destruct r; [now apply RF|split; easy]).
      destruct (match r with Some r => rf s0 r | None => Ok s0 end) as [s1|]; [|easy]. assert (V1 : valid s1 l t = true) by (rewrite (kept_valid k s0 s1); easy). destruct R as [I1 _]. destruct w'; [|exact I1].
      specialize (WF s1 I1 V1). destruct (wf s1); [apply WF|easy]. }
    assert (RAW : forall s, Inv k s -> valid s l t = true -> Kept k s (raw_write k s l t)) by (intros s2 I2 V2; destruct (raw_write_ok k s2 l t (v_shape k s2 I2 l t)) as (es & W); apply ran_kept; eapply data_ran; eauto).
    assert (HDL : forall s, Inv k s -> valid s l t = true -> Kept k s (hdlc_write k s l t)) by (intros s2 I2 V2; destruct (hdlc_write_ok k s2 l t (v_shape k s2 I2 l t)) as (es & W); apply ran_kept; eapply data_ran; eauto).
    unfold fd_cb. destruct (e_type (tsl s l t)).
    + exact I.
    + apply (P (fun s r => frame_read k s l t true r act) (fun s => sign_write k s l t)); [intros; now apply frame_read_kept|intros; now apply sign_write_kept].
    + apply (P (fun s r => block_read k s l t true r act) (fun s => trau_write k s l t)); [intros; now apply block_read_kept|intros; now apply trau_write_kept].
    + apply (P (fun s r => block_read k s l t false r act) (fun s => Ok (raw_write k s l t))); [intros; now apply block_read_kept|intros; now apply RAW].
    + apply (P (fun s r => frame_read k s l t false r act) (fun s => Ok (hdlc_write k s l t))); [intros; now apply frame_read_kept|intros; now apply HDL].
    + apply (P (fun s r => block_read k s l t false r act) (fun s => Ok (raw_write k s l t))); [intros; now apply block_read_kept|intros; now apply RAW].
  - destruct (e_tmr (tsl s l t)) eqn:T; [|exact I]. cbv zeta. assert (V : valid s l t = true) by (eapply valid_reg; [exact I|]; intros X; rewrite X in T; discriminate).
    set (s1 := set_ts s l t _). assert (D : Data l t s s1 []). { pose proof (v_shape k s I l t) as S. split; [apply loc_set; auto|split; [unfold Quiet; subst s1; esg; here_at; now esg|easy]]. destruct S. constructor; esg; auto; discriminate. }
    assert (V1 : valid s1 l t = true) by exact V. pose proof (data_inv _ _ _ _ _ _ I V D) as I1. eapply data_inv; [exact I1|exact V1|]. apply want_ok, D.
  - destruct (e_lapd (tsl s l t)) eqn:T; [|exact I]. assert (V : valid s l t = true) by (eapply valid_reg; [exact I|]; intros X; rewrite X in T; discriminate).
    destruct (lapd_write_ok k s l t m (v_shape k s I l t)) as (es & D). eapply data_inv; eauto.
Qed.
Lemma run_inv k vs : no_zero k -> forall s, Inv k s -> match run k s vs with Ok s' => Inv k s' | Bad _ => True end.
Proof. intros NZ. induction vs as [|v r IH]; intros s I; cbn [run]; [exact I|]. pose proof (step_kept k s v NZ I) as E. destruct (step k s v) as [s1|]; [|easy]. now apply IH. Qed.
Lemma reach k vs s : no_zero k -> run k st_init vs = Ok s -> Inv k s.
Proof. intros NZ R. pose proof (run_inv k vs NZ st_init (inv_init k)) as H. now rewrite R in H. Qed.

(** ** a kernel that serves, an application that behaves: nothing breaks *)
Record Gd (ps : list nat) (n : nat) (ds : list nat) (s : st) : Prop := {
  g_port : forall l, exist s l = true -> In (port s l) ps;
  g_fd : forall l t, e_fd (tsl s l t) <> Failed;
  g_open : forall l t f, e_fd (tsl s l t) = Open f -> (t < n)%nat;
  g_la : forall l t f, ~ In l ds -> e_type (tsl s l t) = TS_SIGN -> e_fd (tsl s l t) = Open f -> e_lapd (tsl s l t) = true
}.
Lemma port_in_spec ps p : port_in ps p = true -> In p ps.
Proof. unfold port_in. rewrite existsb_exists. intros (x & A & B). apply Nat.eqb_eq in B. now subst. Qed.
Lemma gd_data ps n ds l t s s' es : Gd ps n ds s -> Data l t s s' es -> Gd ps n ds s'.
Proof.
  intros G (L & (Q1 & Q2 & Q3 & Q4) & _). destruct (lo_cfg _ _ _ _ _ _ L) as (_ & P & E).
  assert (X : forall l' t', e_type (tsl s' l' t') = e_type (tsl s l' t') /\ e_fd (tsl s' l' t') = e_fd (tsl s l' t') /\ e_lapd (tsl s' l' t') = e_lapd (tsl s l' t')).
  { intros l' t'. pose proof (here_spec l t l' t') as H. destruct (here l t l' t') eqn:HH; [destruct H as [-> ->]; auto|]. now rewrite (lo_oth _ _ _ _ _ _ L _ _ HH). }
  constructor.
  - intros a. rewrite P, E. apply G.
  - intros a b. rewrite (proj1 (proj2 (X a b))). apply G.
  - intros a b f. rewrite (proj1 (proj2 (X a b))). apply G.
  - intros a b f. destruct (X a b) as (-> & -> & ->). apply G.
Qed.
Definition after (c : cmd) (ds : list nat) : list nat := match c with CConfig l _ _ => l :: ds | CUpdate l => filter (fun x => negb (Nat.eqb x l)) ds | _ => ds end.
Definition fine (ps : list nat) (c : cmd) : bool := match c with CPort _ p => port_in ps p | _ => true end.
Lemma settled_cons ps c cs ds : settled ps ds (c :: cs) = fine ps c && settled ps (after c ds) cs.
Proof. destruct c; reflexivity. Qed.
(** a timeslot of which the type does not change keeps its LAPD instance *)
Definition stays (l t : nat) (s s' : st) : Prop := e_type (tsl s' l t) = e_type (tsl s l t) /\ (e_type (tsl s l t) = TS_SIGN -> e_lapd (tsl s l t) = true -> e_lapd (tsl s' l t) = true).
Lemma stays_refl l t s : stays l t s s. Proof. split; auto. Qed.
Lemma stays_trans l t a b c : stays l t a b -> stays l t b c -> stays l t a c.
Proof. intros [A B] [C D]. split; [congruence|]. intros X Y. apply D; [congruence|auto]. Qed.
Lemma data_stays l t l' t' s s' es : Data l t s s' es -> stays l' t' s s'.
Proof.
  intros (L & (Q1 & Q2 & Q3 & Q4) & _). pose proof (here_spec l t l' t') as H. destruct (here l t l' t') eqn:HH; [destruct H as [-> ->]; split; [easy|congruence]|].
  unfold stays. now rewrite (lo_oth _ _ _ _ _ _ L _ _ HH).
Qed.
Lemma update_gd k ps n ds s l : obliging k -> steady k ps n -> Inv k s -> Gd ps n ds s -> exist s l = true ->
  match line_update k s l with Ok (s', rc) => rc = 0 /\ Gd ps n (filter (fun x => negb (Nat.eqb x l)) ds) s' /\ forall l' t', stays l' t' s s' | Bad _ => False end.
Proof.
  intros OB [N32 ST] I G EX. assert (NZ : no_zero k) by (intros m X; destruct (OB m) as (Y & _); congruence). destruct (ST _ (g_port _ _ _ _ G l EX)) as [P1 P2].
  pose proof (update_ok k l s NZ I EX) as U. destruct (line_update k s l) as [[s' rc]|r].
  2: { destruct U as [[_ U]|(_ & m & c & U1 & U2)]; [lia|]. unfold spans_of in U1. rewrite P2 in U1. injection U1 as <-. lia. }
  destruct U as ((I' & PO & E & _ & SM & OT & es & _ & _ & U) & (_ & R & _) & _). specialize (R (proj2 (proj2 (proj2 (OB _)))) _ P1). unfold spans_of in R at 1. rewrite P2 in R.
  destruct U as [(U & _)|(base & num & U1 & U2 & U3)]; [rewrite R in U; discriminate|]. rewrite R in U1. injection U1 as B1 B2. subst num.
  assert (NT : forall t, ~ trouble k (tsl s l t) (tick s)). { intros t [X|(m & _ & X)]; [now apply (g_fd _ _ _ _ G l t)|]. destruct (OB m) as (Y1 & Y2 & Y3 & _). destruct X as [X|[X|X]]; congruence. }
  destruct U3 as [(-> & UP)|(_ & t & _ & _ & _ & X)]; [|now apply NT in X]. split; [easy|]. split.
  - constructor.
    + intros a. rewrite PO, E. apply G.
    + intros a b. destruct (Nat.eq_dec a l) as [->|NE]; [|rewrite OT by easy; apply G]. destruct (le_lt_dec n b) as [LE|LT]; [rewrite U2 by easy; apply G|].
      destruct (UP b LT) as [_ X]. unfold is_up in X. destruct (e_type (tsl s l b)); try (destruct X as (f & X & _); congruence).
    + intros a b f. destruct (Nat.eq_dec a l) as [->|NE]; [|rewrite OT by easy; apply G]. destruct (le_lt_dec n b) as [LE|LT]; [rewrite U2 by easy; apply G|easy].
    + intros a b f NI TY F. destruct (Nat.eq_dec a l) as [->|NE].
      * destruct (le_lt_dec n b) as [LE|LT]; [rewrite U2 in F by easy; apply (g_open _ _ _ _ G) in F; lia|]. destruct (UP b LT) as [_ X]. rewrite (proj1 (SM l b)) in TY. unfold is_up in X. rewrite TY in X. destruct X as (g & _ & _ & _ & X & _). rewrite TY in X. exact X.
      * rewrite OT in * by easy. apply (g_la _ _ _ _ G a b f); auto. intros X. apply NI. apply filter_In. split; [easy|]. now apply negb_true_iff, Nat.eqb_neq.
  - intros a b. split; [apply SM|]. intros TY LA. destruct (Nat.eq_dec a l) as [->|NE]; [|now rewrite OT]. destruct (le_lt_dec n b) as [LE|LT]; [now rewrite U2|].
    destruct (UP b LT) as [_ X]. unfold is_up in X. rewrite TY in X. destruct X as (g & _ & _ & _ & X & _). rewrite TY in X. exact X.
Qed.
Lemma exec_gd k ps n ds s c : obliging k -> steady k ps n -> Inv k s -> Gd ps n ds s -> fine ps c = true ->
  match exec k s c with Ok s' => Gd ps n (after c ds) s' /\ forall l t, avoids l t c = true -> stays l t s s' | Bad r => r = LinksLeft end.
Proof.
  intros OB ST I G F. assert (RF : Gd ps n ds s /\ forall l t, stays l t s s) by (split; [easy|intros; apply stays_refl]).
  assert (D : forall l t s' es, Data l t s s' es -> Gd ps n ds s' /\ forall l' t', stays l' t' s s') by (intros l t s' es D; split; [eapply gd_data; eauto|intros; eapply data_stays; eauto]).
  destruct c as [l t ty|l p|l|l t i|l t i|l t i m]; cbn [exec after].
  - assert (W : Gd ps n (l :: ds) s) by (constructor; try apply G; intros a b f NI; apply (g_la _ _ _ _ G); intros X; apply NI; now right).
    destruct (valid s l t) eqn:V; [|split; [exact W|intros; apply stays_refl]]. pose proof (config_loc s l t ty (v_shape k s I l t)) as C. destruct (config s l t ty) as [s'|r]; [|apply C].
    destruct C as ((es & L) & _ & C1 & C2 & C3). destruct (lo_cfg _ _ _ _ _ _ L) as (_ & P & E).
    assert (X : forall l' t', e_fd (tsl s' l' t') = e_fd (tsl s l' t')). { intros l' t'. pose proof (here_spec l t l' t') as H. destruct (here l t l' t') eqn:HH; [destruct H as [-> ->]; easy|]. now rewrite (lo_oth _ _ _ _ _ _ L _ _ HH). }
    split.
    + constructor.
      * intros a. rewrite P, E. apply G.
      * intros a b. rewrite X. apply G.
      * intros a b f. rewrite X. apply G.
      * intros a b f NI. pose proof (here_spec l t a b) as H. destruct (here l t a b) eqn:HH; [destruct H as [-> ->]; exfalso; apply NI; now left|]. rewrite (lo_oth _ _ _ _ _ _ L _ _ HH). apply G. intros Y. apply NI. now right.
    + intros a b AV. unfold avoids in AV. assert (HH : here l t a b = false) by (unfold here; rewrite (Nat.eqb_sym a), (Nat.eqb_sym b); now apply negb_true_iff). unfold stays. now rewrite (lo_oth _ _ _ _ _ _ L _ _ HH).
  - cbn [fine] in F. destruct (exist s l) eqn:EX; [|split; [exact G|intros; apply stays_refl]]. split; [|intros; split; auto]. constructor; try apply G. cbn [exist port]. intros a A. unfold upd. destruct (Nat.eqb a l); [now apply port_in_spec|now apply G].
  - destruct (exist s l) eqn:EX.
    + pose proof (update_gd k ps n ds s l OB ST I G EX) as U. destruct (line_update k s l) as [[s' rc]|]; [|easy]. destruct U as (_ & U1 & U2). cbn [fst snd]. split; [constructor; apply U1|]. intros a b _. exact (U2 a b).
    + split; [|intros; apply stays_refl]. constructor; try apply G. intros a b g NI TY FD. destruct (Nat.eq_dec a l) as [->|NE].
      * exfalso. assert (V : valid s l b = false) by (unfold valid; now rewrite EX). rewrite (v_def k s I _ _ V) in FD. discriminate.
      * apply (g_la _ _ _ _ G a b g); auto. intros X. apply NI. apply filter_In. split; [easy|]. now apply negb_true_iff, Nat.eqb_neq.
  - destruct (valid s l t); [|split; [exact G|intros; apply stays_refl]]. destruct (link_data s l t i (v_shape k s I l t)) as (es & E). destruct (D _ _ _ _ E). auto.
  - destruct (valid s l t); [|split; [exact G|intros; apply stays_refl]]. destruct (unlink_data s l t i (v_shape k s I l t)) as (es & E). destruct (D _ _ _ _ E). auto.
  - destruct (valid s l t); [|split; [exact G|intros; apply stays_refl]]. destruct (send_data s l t i m (v_shape k s I l t)) as (es & E). destruct (D _ _ _ _ E). auto.
Qed.
Lemma execs_gd k ps n cs : obliging k -> steady k ps n -> forall ds s, Inv k s -> Gd ps n ds s -> settled ps ds cs = true ->
  match execs k cs s with Ok s' => Gd ps n [] s' /\ forall l t, forallb (avoids l t) cs = true -> stays l t s s' | Bad r => r = LinksLeft end.
Proof.
  intros OB ST. assert (NZ : no_zero k) by (intros m X; destruct (OB m) as (Y & _); congruence). induction cs as [|c r IH]; intros ds s I G SE; cbn [execs].
  - cbn [settled] in SE. destruct ds; [|discriminate]. split; [easy|intros; apply stays_refl].
  - rewrite settled_cons in SE. apply andb_true_iff in SE as [F SE]. pose proof (exec_gd k ps n ds s c OB ST I G F) as E. pose proof (exec_ran k s c NZ I) as E'. destruct (exec k s c) as [s1|]; [|exact E]. destruct E as [E1 E2].
    specialize (IH _ s1 (r_inv _ _ _ E') E1 SE). destruct (execs k r s1) as [s2|]; [|exact IH]. destruct IH as [IH1 IH2]. split; [exact IH1|]. intros l t H. cbn [forallb] in H. apply andb_true_iff in H as [H1 H2]. eapply stays_trans; eauto.
Qed.
Definition Fit (k : kern) (ps : list nat) (n l t : nat) (ty : ts_type) (s : st) : Prop :=
  Inv k s /\ Gd ps n [] s /\ valid s l t = true /\ e_type (tsl s l t) = ty /\ (ty = TS_SIGN -> e_lapd (tsl s l t) = true).
Lemma fit_data k ps n l t ty s s' es : Fit k ps n l t ty s -> Data l t s s' es -> Fit k ps n l t ty s'.
Proof.
  intros (I & G & V & T & L) D. split; [eapply data_inv; eauto|]. split; [eapply gd_data; eauto|]. split; [unfold valid; rewrite (proj2 (proj2 (lo_cfg _ _ _ _ _ _ (proj1 D)))); exact V|]. destruct (data_stays _ _ l t _ _ _ D) as [A B]. split; [congruence|]. intros E. apply B; [congruence|auto].
Qed.
Lemma fit_execs k ps n l t ty s e act : obliging k -> steady k ps n -> Fit k ps n l t ty s -> idle e = true -> of_slot l t e -> settled ps [] act && forallb (avoids l t) act = true ->
  match execs k act (emit s e) with Ok s' => Fit k ps n l t ty s' | Bad r => r = LinksLeft end.
Proof.
  intros OB ST (I & G & V & T & L) ID OS H. apply andb_true_iff in H as [SE AV]. assert (NZ : no_zero k) by (intros m X; destruct (OB m) as (Y & _); congruence).
  pose proof (inv_rx k s l t e I V ID OS) as I1. assert (G1 : Gd ps n [] (emit s e)) by (constructor; apply G).
  pose proof (execs_gd k ps n act OB ST [] _ I1 G1 SE) as E. pose proof (execs_ran k act NZ _ I1) as E'. destruct (execs k act (emit s e)) as [s1|r]; [|exact E]. destruct E as [E1 E2]. destruct (E2 l t AV) as [A B]. destruct E' as [R1 R2 _].
  split; [easy|]. split; [easy|]. split; [unfold valid; rewrite R2; exact V|]. split; [rewrite A; exact T|]. intros X. apply B; [now rewrite <- X|auto].
Qed.
Lemma fit_frame k ps n l t ty s b r act : obliging k -> steady k ps n -> Fit k ps n l t ty s -> (b = true -> ty = TS_SIGN) -> settled ps [] act && forallb (avoids l t) act = true ->
  match frame_read k s l t b r act with Ok s' => Fit k ps n l t ty s' | Bad r => r = LinksLeft end.
Proof.
  intros OB ST F B H. unfold frame_read. destruct r as [|o].
  - destruct F as (I & F). destruct (exception_ok k s l t (v_shape k s I l t)) as (D & _). eapply fit_data; [split; eauto|exact D].
  - cbv zeta. destruct (_ <=? _)%nat; [exact F|]. set (m := firstn _ _). clearbody m. destruct b.
    + destruct F as (I & G & V & T & L). rewrite (L (B eq_refl)). apply (fit_execs k ps n l t ty s); auto; [split; auto|easy].
    + now apply (fit_execs k ps n l t ty s).
Qed.
Lemma fit_block k ps n l t ty s b r act : obliging k -> steady k ps n -> Fit k ps n l t ty s -> (b = true -> ty = TS_TRAU) -> settled ps [] act && forallb (avoids l t) act = true ->
  match block_read k s l t b r act with Ok s' => Fit k ps n l t ty s' | Bad r => r = LinksLeft end.
Proof.
  intros OB ST F B H. unfold block_read. destruct r as [|o]; [exact F|]. cbv zeta. destruct (negb _); [exact F|]. set (e := DRx l t _).
  pose proof (fit_execs k ps n l t ty s e act OB ST F eq_refl eq_refl H) as E. destruct (execs k act (emit s e)) as [s1|]; [|exact E]. pose proof E as (I1 & G1 & V1 & T1 & L1). destruct b.
  - pose proof (trau_write_ok k s1 l t (v_shape k s1 I1 l t)) as W. destruct (trau_write k s1 l t); [destruct W as (es & W); eapply fit_data; eauto|]. destruct W as [_ W]. rewrite T1, (B eq_refl) in W. discriminate.
  - destruct (raw_write_ok k s1 l t (v_shape k s1 I1 l t)) as (es & W). eapply fit_data; eauto.
Qed.
Lemma step_gd k ps n s v : obliging k -> steady k ps n -> Inv k s -> Gd ps n [] s -> polite ps v = true ->
  match step k s v with Ok s' => Gd ps n [] s' | Bad r => r = LinksLeft end.
Proof.
  intros OB ST I G PO. destruct v as [l p|cs|l t x r w act|l t|l t m]; cbn [step polite] in *.
  - destruct (exist s l) eqn:EX; [exact G|]. constructor; try apply G. cbn [exist port]. intros a A. unfold upd in *. destruct (Nat.eqb a l); [now apply port_in_spec|now apply G].
  - pose proof (execs_gd k ps n cs OB ST [] s I G PO) as E. destruct (execs k cs s); [apply E|exact E].
  - destruct (e_reg (tsl s l t)) eqn:RG; [|exact G]. assert (V : valid s l t = true) by (eapply valid_reg; [exact I|]; intros X; rewrite X in RG; discriminate).
    assert (F : Fit k ps n l t (e_type (tsl s l t)) s). { split; [easy|]. split; [easy|]. split; [easy|]. split; [easy|]. intros TY. destruct (sh_reg _ (v_shape k s I l t) RG) as [f FD]. now apply (g_la _ _ _ _ G l t f). }
    assert (P : forall (rf : st -> rd -> res st) (wf : st -> res st), (forall s0 r, Fit k ps n l t (e_type (tsl s l t)) s0 -> match rf s0 r with Ok s' => Fit k ps n l t (e_type (tsl s l t)) s' | Bad r => r = LinksLeft end) ->
        (forall s0, Fit k ps n l t (e_type (tsl s l t)) s0 -> match wf s0 with Ok s' => Fit k ps n l t (e_type (tsl s l t)) s' | Bad r => r = LinksLeft end) -> forall w : bool,
      match (let s0 := if x then exception k s l t else s in try s1 <- match r with Some r => rf s0 r | None => Ok s0 end; if w then wf s1 else Ok s1) with Ok s' => Gd ps n [] s' | Bad r => r = LinksLeft end).
    { intros rf wf RF WF w'. cbv zeta. set (s0 := if x then _ else s). assert (F0 : Fit k ps n l t (e_type (tsl s l t)) s0). { subst s0. destruct x; [|easy]. destruct (exception_ok k s l t (v_shape k s I l t)) as (D & _). eapply fit_data; eauto. }
      clearbody s0. assert (R : match match r with Some r => rf s0 r | None => Ok s0 end with Ok s' => Fit k ps n l t (e_type (tsl s l t)) s' | Bad r => r = LinksLeft end) by (destruct r; [now apply RF|exact F0]).
      destruct (match r with Some r => rf s0 r | None => Ok s0 end) as [s1|]; [|exact R]. destruct w'; [|apply R]. specialize (WF s1 R). destruct (wf s1); [apply WF|exact WF]. }
    assert (RAW : forall s0, Fit k ps n l t (e_type (tsl s l t)) s0 -> Fit k ps n l t (e_type (tsl s l t)) (raw_write k s0 l t)) by (intros s2 F2; destruct (raw_write_ok k s2 l t (v_shape k s2 (proj1 F2) l t)) as (es & W); eapply fit_data; eauto).
    assert (HDL : forall s0, Fit k ps n l t (e_type (tsl s l t)) s0 -> Fit k ps n l t (e_type (tsl s l t)) (hdlc_write k s0 l t)) by (intros s2 F2; destruct (hdlc_write_ok k s2 l t (v_shape k s2 (proj1 F2) l t)) as (es & W); eapply fit_data; eauto).
    unfold fd_cb. destruct (e_type (tsl s l t)) eqn:TY.
    + exact G.
    + apply (P (fun s r => frame_read k s l t true r act) (fun s => sign_write k s l t)); [intros; now apply fit_frame|]. intros s2 F2. pose proof (sign_write_ok k s2 l t (v_shape k s2 (proj1 F2) l t)) as W.
      destruct (sign_write k s2 l t); [destruct W as (es & W); eapply fit_data; eauto|]. destruct F2 as (_ & _ & _ & T2 & L2). destruct W as [(_ & _ & W)|(_ & W)]; [rewrite L2 in W; easy|congruence].
    + apply (P (fun s r => block_read k s l t true r act) (fun s => trau_write k s l t)); [intros; now apply fit_block|]. intros s2 F2. pose proof (trau_write_ok k s2 l t (v_shape k s2 (proj1 F2) l t)) as W.
      destruct (trau_write k s2 l t); [destruct W as (es & W); eapply fit_data; eauto|]. destruct F2 as (_ & _ & _ & T2 & L2). destruct W as (_ & W). congruence.
    + apply (P (fun s r => block_read k s l t false r act) (fun s => Ok (raw_write k s l t))); [intros; now apply fit_block|intros; now apply RAW].
    + apply (P (fun s r => frame_read k s l t false r act) (fun s => Ok (hdlc_write k s l t))); [intros; now apply fit_frame|intros; now apply HDL].
    + apply (P (fun s r => block_read k s l t false r act) (fun s => Ok (raw_write k s l t))); [intros; now apply fit_block|intros; now apply RAW].
  - destruct (e_tmr (tsl s l t)) eqn:T; [|exact G]. cbv zeta. pose proof (v_shape k s I l t) as S.
    set (s1 := set_ts s l t _). assert (D : Data l t s s1 []). { split; [apply loc_set; auto|split; [unfold Quiet; subst s1; esg; here_at; now esg|easy]]. destruct S. constructor; esg; auto; discriminate. }
    eapply gd_data; [eapply gd_data; [exact G|exact D]|]. apply want_ok, D.
  - destruct (e_lapd (tsl s l t)) eqn:T; [|exact G]. destruct (lapd_write_ok k s l t m (v_shape k s I l t)) as (es & D). eapply gd_data; eauto.
Qed.
Lemma run_gd k ps n vs : obliging k -> steady k ps n -> forall s, Inv k s -> Gd ps n [] s -> forallb (polite ps) vs = true -> match run k s vs with Ok s' => Gd ps n [] s' | Bad r => r = LinksLeft end.
Proof.
  intros OB ST. assert (NZ : no_zero k) by (intros m X; destruct (OB m) as (Y & _); congruence). induction vs as [|v r IH]; intros s I G P; cbn [run]; [exact G|]. cbn [forallb] in P. apply andb_true_iff in P as [P1 P2].
  pose proof (step_gd k ps n s v OB ST I G P1) as E. pose proof (step_kept k s v NZ I) as E'. destruct (step k s v) as [s1|]; [|exact E]. now apply IH.
Qed.
Lemma gd_init ps n : Gd ps n [] st_init.
Proof. constructor; cbn; discriminate. Qed.

(** ** channels opened *)
Definition chan_at (k : kern) (p t c : nat) : Prop := exists m, k_ctl k m = true /\ (S p < k_max k)%nat /\ channel (spans_of k m) p t c.
Definition Chans (k : kern) (s s' : st) : Prop := port s' = port s /\ exists es, out s' = out s ++ es /\ forall l t c f, In (DOpen l t c f) es -> chan_at k (port s l) t c.
Lemma chans_same k s s' : port s' = port s -> out s' = out s -> Chans k s s'.
Proof. intros P O. split; [easy|]. exists []. rewrite app_nil_r. split; [easy|]. intros ? ? ? ? []. Qed.
Lemma chans_refl k s : Chans k s s. Proof. now apply chans_same. Qed.
Lemma chans_trans k a b c : Chans k a b -> Chans k b c -> Chans k a c.
Proof. intros (P & x & A & B) (P' & y & C & D). split; [congruence|]. exists (x ++ y). rewrite C, A, app_assoc. split; [easy|]. intros l t ch f H. apply in_app_iff in H as [H|H]; [eauto|]. rewrite <- P. eauto. Qed.
Lemma chans_one k s e : (forall l t c f, e <> DOpen l t c f) -> Chans k s (emit s e).
Proof. intros N. split; [easy|]. exists [e]. split; [easy|]. intros l t c f [H|[]]. subst e. now elim (N l t c f). Qed.
Lemma loc_chans k l t s s' es : Loc nochan l t s s' es -> Chans k s s'.
Proof.
  intros L. split; [apply L|]. exists es. split; [apply L|]. intros a b c f H. exfalso. pose proof (lo_slot _ _ _ _ _ _ L) as FF. rewrite Forall_forall in FF. specialize (FF _ H). unfold of_slot in FF. cbn in FF. injection FF as -> ->. exact (lo_chan _ _ _ _ _ _ L _ _ H).
Qed.
Lemma data_chans k l t s s' es : Data l t s s' es -> Chans k s s'. Proof. intros D. eapply loc_chans, D. Qed.
Lemma exec_chans k s c : no_zero k -> Inv k s -> keeps_port c = true -> match exec k s c with Ok s' => Chans k s s' | Bad r => True end.
Proof.
  intros NZ I KP. destruct c as [l t ty|l p|l|l t i|l t i|l t i m]; cbn [exec]; [| discriminate | | | | ].
  - destruct (valid s l t) eqn:V; [|apply chans_refl]. pose proof (config_loc s l t ty (v_shape k s I l t)) as C. destruct (config s l t ty) as [s'|r]; [|easy]. destruct C as ((es & L) & _). eapply loc_chans; eauto.
  - destruct (exist s l) eqn:EX; [|apply chans_refl]. pose proof (update_ok k l s NZ I EX) as U. destruct (line_update k s l) as [[s' rc]|r]; [|easy]. destruct U as ((I' & P & E & _ & _ & _ & es & O & (SL & CH) & _) & _ & _). cbn [fst snd].
    eapply chans_trans; [|apply chans_one; discriminate]. split; [exact P|]. exists (DUpdate l :: es). split; [exact O|]. intros a b c f [H|H]; [discriminate|].
    assert (a = l) by (rewrite Forall_forall in SL; destruct (SL _ H) as (t0 & X); unfold of_slot in X; cbn in X; now injection X). subst a.
    destruct (CH _ _ _ H) as (base & num & S1 & S2 & S3). destruct (v_spans k s' I' _ _ _ S1) as (m & M1 & M2 & M3 & M4). exists m. split; [easy|]. split; [easy|]. exists num. split; [easy|]. split; [easy|]. lia.
  - destruct (valid s l t) eqn:V; [|apply chans_refl]. destruct (link_data s l t i (v_shape k s I l t)) as (es & D). eapply data_chans; eauto.
  - destruct (valid s l t) eqn:V; [|apply chans_refl]. destruct (unlink_data s l t i (v_shape k s I l t)) as (es & D). eapply data_chans; eauto.
  - destruct (valid s l t) eqn:V; [|apply chans_refl]. destruct (send_data s l t i m (v_shape k s I l t)) as (es & D). eapply data_chans; eauto.
Qed.
Lemma execs_chans k cs : no_zero k -> forall s, Inv k s -> forallb keeps_port cs = true -> match execs k cs s with Ok s' => Chans k s s' | Bad _ => True end.
Proof.
  intros NZ. induction cs as [|c r IH]; intros s I KP; cbn [execs]; [apply chans_refl|]. cbn [forallb] in KP. apply andb_true_iff in KP as [K1 K2]. pose proof (exec_chans k s c NZ I K1) as E. pose proof (exec_ran k s c NZ I) as E'. destruct (exec k s c) as [s1|q]; [|easy].
  specialize (IH s1 (r_inv _ _ _ E') K2). destruct (execs k r s1) as [s2|q]; [eapply chans_trans; eauto|easy].
Qed.
(** the parts of a turn of the select loop for a timeslot: event, read, write *)
Definition Chained (k : kern) (l t : nat) (s s' : st) : Prop := Inv k s' /\ valid s' l t = true /\ Chans k s s'.
Lemma chained_data k l t s s' es : Inv k s -> valid s l t = true -> Data l t s s' es -> Chained k l t s s'.
Proof. intros I V D. split; [eapply data_inv; eauto|]. split; [unfold valid; rewrite (proj2 (proj2 (lo_cfg _ _ _ _ _ _ (proj1 D)))); exact V|eapply data_chans; eauto]. Qed.
Lemma chained_refl k l t s : Inv k s -> valid s l t = true -> Chained k l t s s.
Proof. intros I V. split; [easy|]. split; [easy|apply chans_refl]. Qed.
Lemma chained_rx k l t s e act : no_zero k -> Inv k s -> valid s l t = true -> idle e = true -> of_slot l t e -> forallb keeps_port act = true -> match execs k act (emit s e) with Ok s' => Chained k l t s s' | Bad _ => True end.
Proof.
  intros NZ I V A B KP. pose proof (inv_rx k s l t e I V A B) as I1. pose proof (execs_ran k act NZ _ I1) as R. pose proof (execs_chans k act NZ _ I1 KP) as C. destruct (execs k act (emit s e)) as [s1|]; [|easy]. destruct R as [R1 R2 _].
  split; [easy|]. split; [unfold valid; rewrite R2; exact V|]. eapply chans_trans; [apply chans_one|exact C]. intros ? ? ? ? ->. discriminate.
Qed.
Lemma step_chans k s v : no_zero k -> Inv k s -> unmoved v = true -> (forall l p, v <> Create l p) -> match step k s v with Ok s' => Chans k s s' | Bad _ => True end.
Proof.
  intros NZ I KP NC. destruct v as [l p|cs|l t x r w act|l t|l t m]; cbn [step unmoved] in *; [now elim (NC l p)| | | | ].
  - now apply execs_chans.
  - destruct (e_reg (tsl s l t)) eqn:G; [|apply chans_refl]. assert (V : valid s l t = true) by (eapply valid_reg; [exact I|]; intros X; rewrite X in G; discriminate).
    assert (EXC : forall s0, Inv k s0 -> valid s0 l t = true -> Chained k l t s0 (exception k s0 l t)) by (intros s0 I0 V0; destruct (exception_ok k s0 l t (v_shape k s0 I0 l t)) as (D & _); eapply chained_data; eauto).
    assert (RAW : forall s0, Inv k s0 -> valid s0 l t = true -> Chained k l t s0 (raw_write k s0 l t)) by (intros s0 I0 V0; destruct (raw_write_ok k s0 l t (v_shape k s0 I0 l t)) as (es & D); eapply chained_data; eauto).
    assert (HDL : forall s0, Inv k s0 -> valid s0 l t = true -> Chained k l t s0 (hdlc_write k s0 l t)) by (intros s0 I0 V0; destruct (hdlc_write_ok k s0 l t (v_shape k s0 I0 l t)) as (es & D); eapply chained_data; eauto).
    assert (SIG : forall s0, Inv k s0 -> valid s0 l t = true -> match sign_write k s0 l t with Ok s' => Chained k l t s0 s' | Bad _ => True end) by (intros s0 I0 V0; pose proof (sign_write_ok k s0 l t (v_shape k s0 I0 l t)) as W; destruct (sign_write k s0 l t); [destruct W as (es & W); eapply chained_data; eauto|easy]).
    assert (TRA : forall s0, Inv k s0 -> valid s0 l t = true -> match trau_write k s0 l t with Ok s' => Chained k l t s0 s' | Bad _ => True end) by (intros s0 I0 V0; pose proof (trau_write_ok k s0 l t (v_shape k s0 I0 l t)) as W; destruct (trau_write k s0 l t); [destruct W as (es & W); eapply chained_data; eauto|easy]).
    assert (TR : forall a b c, Chained k l t a b -> Chained k l t b c -> Chained k l t a c) by (intros a b c (_ & _ & A) (B1 & B2 & B3); split; [easy|]; split; [easy|eapply chans_trans; eauto]).
    assert (FRD : forall b s0 r, Inv k s0 -> valid s0 l t = true -> match frame_read k s0 l t b r act with Ok s' => Chained k l t s0 s' | Bad _ => True end).
    { intros b s0 r0 I0 V0. unfold frame_read. destruct r0 as [|o]; [now apply EXC|]. cbv zeta. destruct (_ <=? _)%nat; [now apply chained_refl|]. destruct b; [destruct (e_lapd _); [|easy]|]; now apply chained_rx. }
    assert (BRD : forall b s0 r, Inv k s0 -> valid s0 l t = true -> match block_read k s0 l t b r act with Ok s' => Chained k l t s0 s' | Bad _ => True end).
    { intros b s0 r0 I0 V0. unfold block_read. destruct r0 as [|o]; [now apply chained_refl|]. cbv zeta. destruct (negb _); [now apply chained_refl|]. set (e := DRx l t _). pose proof (chained_rx k l t s0 e act NZ I0 V0 eq_refl eq_refl KP) as E. destruct (execs k act (emit s0 e)) as [s1|]; [|easy].
      pose proof E as (I1 & V1 & _). destruct b; [|eapply TR; [exact E|now apply RAW]]. specialize (TRA s1 I1 V1). destruct (trau_write k s1 l t); [eapply TR; eauto|easy]. }
    assert (P : forall (rf : st -> rd -> res st) (wf : st -> res st), (forall s r, Inv k s -> valid s l t = true -> match rf s r with Ok s' => Chained k l t s s' | Bad _ => True end) -> (forall s, Inv k s -> valid s l t = true -> match wf s with Ok s' => Chained k l t s s' | Bad _ => True end) -> forall w : bool,
      match (let s0 := if x then exception k s l t else s in try s1 <- match r with Some r => rf s0 r | None => Ok s0 end; if w then wf s1 else Ok s1) with Ok s' => Chans k s s' | Bad _ => True end).
    { intros rf wf RF WF w'. cbv zeta. set (s0 := if x then _ else s). assert (K0 : Chained k l t s s0) by (subst s0; destruct x; [now apply EXC|now apply chained_refl]). clearbody s0. pose proof K0 as (I0 & V0 & _).
      assert (R : match match r with Some r => rf s0 r | None => Ok s0 end with Ok s' => Chained k l t s0 s' | Bad _ => True end) by (destruct r; [now apply RF|now apply chained_refl]).
      destruct (match r with Some r => rf s0 r | None => Ok s0 end) as [s1|]; [|easy]. pose proof R as (I1 & V1 & _). pose proof (TR _ _ _ K0 R) as K1. destruct w'; [|apply K1]. specialize (WF s1 I1 V1). destruct (wf s1); [|easy]. apply (TR _ _ _ K1 WF). }
    unfold fd_cb. destruct (e_type (tsl s l t)).
    + apply chans_refl.
    + apply (P (fun s r => frame_read k s l t true r act) (fun s => sign_write k s l t)); [intros; now apply FRD|intros; now apply SIG].
    + apply (P (fun s r => block_read k s l t true r act) (fun s => trau_write k s l t)); [intros; now apply BRD|intros; now apply TRA].
    + apply (P (fun s r => block_read k s l t false r act) (fun s => Ok (raw_write k s l t))); [intros; now apply BRD|intros; now apply RAW].
    + apply (P (fun s r => frame_read k s l t false r act) (fun s => Ok (hdlc_write k s l t))); [intros; now apply FRD|intros; now apply HDL].
    + apply (P (fun s r => block_read k s l t false r act) (fun s => Ok (raw_write k s l t))); [intros; now apply BRD|intros; now apply RAW].
  - destruct (e_tmr (tsl s l t)); [|apply chans_refl]. cbv zeta. unfold want_write. destruct (e_type _); now apply chans_same.
  - destruct (e_lapd (tsl s l t)) eqn:T; [|apply chans_refl]. destruct (lapd_write_ok k s l t m (v_shape k s I l t)) as (es & D). eapply data_chans; eauto.
Qed.
Lemma run_chans k vs : no_zero k -> forall s, Inv k s -> forallb unmoved vs = true -> (forall l t c f, In (DOpen l t c f) (out s) -> chan_at k (port s l) t c) ->
  match run k s vs with Ok s' => forall l t c f, In (DOpen l t c f) (out s') -> chan_at k (port s' l) t c | Bad _ => True end.
Proof.
  intros NZ. induction vs as [|v r IH]; intros s I U H; cbn [run]; [exact H|]. cbn [forallb] in U. apply andb_true_iff in U as [U1 U2]. pose proof (step_kept k s v NZ I) as E. pose proof (step_chans k s v NZ I U1) as C. destruct (step k s v) as [s1|] eqn:ST; [|easy]. apply IH; auto.
  destruct v as [l p|cs|l t x r0 w act|l t|l t m]; try (destruct C as (P & es & O & N); [discriminate|]; intros a b c f X; rewrite O in X; apply in_app_iff in X as [X|X]; rewrite P; eauto).
  clear C. cbn [step] in ST. injection ST as <-. destruct (exist s l) eqn:EX; [exact H|]. cbn [out port]. intros a b c f X. unfold upd. destruct (Nat.eqb_spec a l) as [->|]; [|eauto]. exfalso. destruct (v_chan k s I _ _ _ _ X) as [V _]. unfold valid in V. rewrite EX in V. discriminate.
Qed.
