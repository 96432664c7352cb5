(** C65, C66: the serial port driver. *)
From Coq Require Import List Arith Lia Bool ZArith.
From Verif Require Import Base Rs232Model Rs232Spec Rs232Proofs.
Import ListNotations.
Open Scope Z_scope.

(** ** C65: framing *)
(** however the port hands out the octets, the messages delivered are the frames of what was read,
    in order; what is left is not yet a frame (a frame of length 0 is delivered with the next read) *)
Theorem C65_rx k vs s : run k (st_init true) vs = Ok s -> exists rest, reads (out s) = concat (map fst (received (out s))) ++ rest /\ Forall frame (map fst (received (out s))) /\ partial rest.
Proof.
  intros R. destruct (reach_inv _ _ _ _ R) as [I C]. destruct (i_rx s I) as (rest & A & _ & P). pose proof (i_cb s I) as [CB _]. rewrite C in CB. exists rest. rewrite CB. split; [easy|]. split; [apply I|easy].
Qed.
(** the application is to look at what follows the first ten octets, if there are more than ten *)
Theorem C65_payload k c vs s o l2 : run k (st_init c) vs = Ok s -> In (o, l2) (received (out s)) -> c = true /\
  ((length o <= 10)%nat -> l2 = None) /\ ((10 < length o)%nat -> exists hd m, o = hd ++ m /\ length hd = 10%nat /\ l2 = Some m).
Proof.
  intros R H. destruct (reach_inv _ _ _ _ R) as [I C]. destruct (i_cb s I) as [CB F]. rewrite C in CB. destruct c; [|rewrite CB in H; easy]. split; [easy|].
  rewrite Forall_forall in F. specialize (F _ H). cbn [fst snd] in F. unfold l2_ok in F. destruct (Nat.ltb_spec 10 (length o)) as [L|L]; subst l2; (split; [|]); intros X; try lia; try easy.
  exists (firstn 10 o), (skipn 10 o). split; [symmetry; apply firstn_skipn|]. split; [rewrite firstn_length; lia|easy].
Qed.
(** there is one way to cut a stream of octets into frames (but for a last one of length 0) *)
Lemma frame_prefix d d' t t' : frame d -> frame d' -> d ++ t = d' ++ t' -> d = d' /\ t = t'.
Proof.
  intros (h & l & b & -> & L) (h' & l' & b' & -> & L') E. cbn [app] in E. injection E as <- <- E. assert (X : length b = length b') by lia.
  assert (Y : b = b' /\ t = t'). { clear L L'; revert b' X E; clear. induction b as [|x r IH]; intros [|y r'] X E; try discriminate; [easy|]. cbn [app] in E. injection E as <- E. injection X as X. destruct (IH r' X E) as [-> ->]. easy. }
  destruct Y as [-> ->]. easy.
Qed.
Lemma partial_frame d t r : frame d -> partial r -> r = d ++ t -> t = [] /\ length d = 2%nat.
Proof.
  intros (h & l & b & -> & L) P E. destruct P as [P|(h' & l' & b' & -> & P)]; [rewrite E in P; cbn in P; lia|]. cbn [app] in E. injection E as <- <- ->. destruct P as [P|P]; [apply app_eq_nil in P; destruct P as [-> ->]; easy|]. rewrite app_length in P. lia.
Qed.
Theorem C65_unique : forall ds r ds' r', Forall frame ds -> Forall frame ds' -> partial r -> partial r' -> concat ds ++ r = concat ds' ++ r' ->
  ds = ds' \/ (exists d, length d = 2%nat /\ (ds' = ds ++ [d] \/ ds = ds' ++ [d])).
Proof.
  induction ds as [|d ds IH]; intros r ds' r' F F' P P' E.
  - destruct ds' as [|d' ds']; [now left|]. cbn [concat app] in E. pose proof (Forall_inv F') as H1; pose proof (Forall_inv_tail F') as H2. rewrite <- app_assoc in E. destruct (partial_frame d' _ r H1 P E) as [X Y]. apply app_eq_nil in X. destruct X as [X _]. right. exists d'. split; [easy|]. left. cbn. f_equal. destruct ds' as [|d2 ds']; [easy|]. pose proof (Forall_inv H2) as H4. destruct H4 as (h & l & b & -> & _). discriminate.
  - pose proof (Forall_inv F) as H1; pose proof (Forall_inv_tail F) as H2. destruct ds' as [|d' ds'].
    + cbn [concat app] in E. rewrite <- app_assoc in E. symmetry in E. destruct (partial_frame d _ r' H1 P' E) as [X Y]. apply app_eq_nil in X. destruct X as [X _]. right. exists d. split; [easy|]. right. cbn. f_equal. destruct ds as [|d2 ds]; [easy|]. pose proof (Forall_inv H2) as H4. destruct H4 as (h & l & b & -> & _). discriminate.
    + pose proof (Forall_inv F') as H3; pose proof (Forall_inv_tail F') as H4. cbn [concat] in E. rewrite <- !app_assoc in E. destruct (frame_prefix _ _ _ _ H1 H3 E) as [<- E']. destruct (IH r ds' r' H2 H4 P P' E') as [->|(x & X & [->| ->])]; [now left| |]; right; exists x; (split; [easy|]); [now left|now right].
Qed.
(** so two ports that read the same octets, in whatever pieces, deliver the same messages *)
Theorem C65_pieces k k' vs vs' s s' : run k (st_init true) vs = Ok s -> run k' (st_init true) vs' = Ok s' -> reads (out s) = reads (out s') ->
  let d := map fst (received (out s)) in let d' := map fst (received (out s')) in d = d' \/ exists x, length x = 2%nat /\ (d' = d ++ [x] \/ d = d' ++ [x]).
Proof.
  intros R R' E. cbv zeta. destruct (C65_rx _ _ _ R) as (r & A & B & C). destruct (C65_rx _ _ _ R') as (r' & A' & B' & C'). eapply C65_unique; [exact B|exact B'|exact C|exact C'|]. now rewrite <- A, <- A'.
Qed.
(** if no write was short, the wire carries the messages sent, in order, each in its frame *)
Theorem C65_wire k c vs s : run k (st_init c) vs = Ok s -> ~ In EShort (out s) -> exists os, wire (out s) = concat os /\ Forall2 packed (sent (out s)) os.
Proof.
  intros R N. destruct (reach_inv _ _ _ _ R) as [I _]. exists (map build (sent (out s))). split; [now apply (i_wire s I)|]. induction (sent (out s)); [constructor|]. constructor; [apply build_packed|easy].
Qed.
Lemma map_nil {A B} (f : A -> B) l : map f l = [] -> l = []. Proof. now destruct l. Qed.
(** two ends of a serial line: what one sends the other receives, in order, as far as it has read;
    an empty message arrives as one to look nowhere in *)
Definition arrives (m : list Z) (p : list Z * option (list Z)) : Prop := snd p = match m with [] => None | _ => Some m end.
Theorem C65_round_trip k c vs s k' vs' s' tl : run k (st_init c) vs = Ok s -> run k' (st_init true) vs' = Ok s' ->
  ~ In EShort (out s) -> Forall (fun m => Z.of_nat (length m) + 8 < 65536) (sent (out s)) -> wire (out s) = reads (out s') ++ tl ->
  exists ms later, sent (out s) = ms ++ later /\ Forall2 arrives ms (received (out s')) /\ (tl = [] -> later = []).
Proof.
  intros R R' N L W. destruct (reach_inv _ _ _ _ R) as [I _]. rewrite (i_wire s I N) in W. destruct (C65_rx _ _ _ R') as (rest & A & B & P). rewrite A, <- app_assoc in W.
  assert (PL : forall o l2, In (o, l2) (received (out s')) -> l2_ok o l2). { intros o l2 H. destruct (reach_inv _ _ _ _ R') as [I' _]. destruct (i_cb s' I') as [_ F]. rewrite Forall_forall in F. exact (F _ H). }
  revert W PL B. clear A R R' I N. generalize (received (out s')). intros ps. revert L. generalize (sent (out s)). intros ms. revert ms. induction ps as [|[o l2] ps IH]; intros ms L W PL B.
  - exists [], ms. split; [easy|]. split; [constructor|]. intros ->. cbn [map concat app] in W. rewrite app_nil_r in W. destruct ms as [|m ms]; [easy|]. pose proof (Forall_inv L) as H1. destruct (build_frame m H1) as [F _]. cbn [map concat] in W. destruct (partial_frame (build m) _ rest F P (eq_sym W)) as [_ X]. cbn in X. lia.
  - cbn [map concat fst] in W, B. pose proof (Forall_inv B) as H1; pose proof (Forall_inv_tail B) as H2. rewrite <- app_assoc in W. destruct ms as [|m ms]; [destruct H1 as (h & l & b & -> & _); discriminate|]. pose proof (Forall_inv L) as H3; pose proof (Forall_inv_tail L) as H4. destruct (build_frame m H3) as [F _]. cbn [map concat] in W. destruct (frame_prefix _ _ _ _ F H1 W) as [<- W'].
    destruct (IH ms H4 W' (fun a b X => PL a b (or_intror X)) H2) as (m1 & m2 & -> & F2 & T). exists (m :: m1), m2. split; [easy|]. split; [|easy]. constructor; [|easy]. unfold arrives. cbn [snd]. rewrite (PL (build m) l2 (or_introl eq_refl)). destruct m as [|x m]; [easy|].
    replace (10 <? length (build (x :: m)))%nat with true by (symmetry; apply Nat.ltb_lt; cbn; lia). easy.
Qed.
(** ** C65: crashes *)
Lemma execs_bad k cs : forall s r, execs k cs s = Bad r -> r = Twice.
Proof.
  induction cs as [|c cs IH]; intros s r H; [discriminate|]. cbn [execs] in H. destruct (exec k s c) as [s1|r'] eqn:E; [eauto|]. injection H as <-. destruct c; cbn [exec] in E; try discriminate. destruct (setup k s) as [p|r''] eqn:P; [discriminate|]. injection E as <-. unfold setup in P.
  destruct (negb (k_open k _)); [discriminate|]. destruct (negb (k_get k _)); [discriminate|]. destruct (negb (k_set k _)); [discriminate|]. destruct (reg _) ; [now injection P|]. destruct (negb (k_reg k _)); discriminate.
Qed.
(** a message buffer overflows only when the length of the message being read is more than 298 *)
Theorem C65_overflow k c vs s v : run k (st_init c) vs = Ok s -> step k s v = Bad Overflow ->
  exists ds h l body, reads (out s) = concat ds ++ h :: l :: body /\ Forall frame ds /\ 256 * h + l > 298.
Proof.
  intros R H. destruct (reach_inv _ _ _ _ R) as [I _]. destruct v as [cs|r w act]; cbn [step] in H; [apply execs_bad in H; discriminate|]. destruct (fd s) as [f|]; [|discriminate]. destruct (reg s); [|discriminate]. unfold fd_cb in H.
  destruct r as [r|]; [|cbn in H; destruct (w && wr s); discriminate]. destruct (ser_read k f s r act) as [[s1 b]|r'] eqn:E; [destruct (negb b && (w && wr s)); discriminate|]. injection H as ->. unfold ser_read in E. destruct (i_rx s I) as (rest & A1 & A2 & A3).
  assert (X : forall b, rest = b -> ((length b < 2)%nat \/ exists h l body, b = h :: l :: body /\ missing s = 256 * h + l - Z.of_nat (length body) /\ (body = [] \/ 0 < missing s)) ->
     match r with
     | RdErr => Ok (emit (w_rx s Freed (missing s)) (EReadErr f), true)
     | Rd avail =>
       if (length b <? 2)%nat then
        let o := firstn (2 - length b) avail in
        try b <- fill b o;
        let s := emit s (ERead f o) in
        Ok (w_rx s (Buf b) (if (2 <=? length b)%nat then Z.shiftl (nth 0 b 0) 8 + nth 1 b 0 else missing s), false)
      else
        let o := firstn (Z.to_nat (missing s)) avail in
        try b <- fill b o;
        let s := emit s (ERead f o) in
        let miss := missing s - Z.of_nat (length o) in
        if miss =? 0 then
          let s := w_rx s NoBuf 0 in
          if negb (cb s) then Ok (emit s (ELeak b), true)
          else try s <- execs k act (emit s (ERx b (if (10 <? length b)%nat then Some (skipn 10 b) else None))); Ok (s, false)
        else Ok (w_rx s (Buf b) miss, false) end = Bad Overflow -> exists ds h l body, reads (out s) = concat ds ++ h :: l :: body /\ Forall frame ds /\ 256 * h + l > 298).
  { intros b -> SH HH. destruct r as [|avail]; [discriminate|]. destruct (Nat.ltb_spec (length b) 2) as [L|L].
    - cbv zeta in HH. unfold fill in HH. destruct (Nat.ltb_spec 300 (length (b ++ firstn (2 - length b) avail))) as [L2|L2]; [|discriminate]. rewrite app_length, firstn_length in L2. lia.
    - destruct SH as [SH|(h & l & body & -> & M & X)]; [lia|]. cbv zeta iota in HH. unfold fill in HH. set (o := firstn (Z.to_nat (missing s)) avail) in *. destruct (Nat.ltb_spec 300 (length ((h :: l :: body) ++ o))) as [L2|L2].
      + exists (done (out s)), h, l, body. split; [exact A1|]. split; [apply I|]. rewrite app_length in L2. cbn [length] in L2. unfold o in L2. rewrite firstn_length in L2. destruct X as [-> | X]; cbn [length] in *; lia.
      + cbn [emit missing] in HH. destruct (_ =? 0); [|discriminate]. cbn [w_rx cb] in HH. destruct (negb (cb (emit s _))); [discriminate|]. destruct (execs k act _) as [s2|r2] eqn:EX; [discriminate|]. injection HH as ->. apply execs_bad in EX. discriminate. }
  destruct (rx s) as [|b|]; [| |discriminate]; cbn [held] in A2; [apply (X [] A2)|destruct A2 as [A2 A4]; apply (X b A2 A4)]; try (left; cbn; lia); exact E.
Qed.
(** ... and it does overflow when such a message comes *)
Theorem C65_overflow_refuted k vs s ds h l body w act avail : run k (st_init true) vs = Ok s -> reads (out s) = concat ds ++ h :: l :: body -> Forall frame ds -> 256 * h + l > 298 -> (length body <= 298)%nat ->
  reg s = true -> fd s <> None -> (forall f, ~ In (EReadErr f) (out s)) -> (298 - length body < length avail)%nat -> step k s (Ready (Some (Rd avail)) w act) = Bad Overflow.
Proof.
  intros R RD FD L LB G F NE A. destruct (reach_inv _ _ _ _ R) as [I _]. destruct (i_rx s I) as (rest & A1 & A2 & A3).
  assert (PB : partial (h :: l :: body)) by (right; exists h, l, body; split; [easy|]; right; lia).
  assert (E : rest = h :: l :: body).
  { assert (EQ : concat (done (out s)) ++ rest = concat ds ++ h :: l :: body) by congruence. destruct (C65_unique _ _ _ _ (i_frames s I) FD A3 PB EQ) as [X|(d & D & [X|X])].
    - rewrite X in EQ. now apply app_inv_head in EQ.
    - exfalso. rewrite X in EQ, FD. rewrite concat_app in EQ. cbn [concat] in EQ. rewrite app_nil_r, <- app_assoc in EQ. apply app_inv_head in EQ. apply Forall_app in FD. destruct FD as [_ FD]. destruct (partial_frame d _ rest (Forall_inv FD) A3 EQ) as [Y _]. discriminate.
    - exfalso. pose proof (i_frames s I) as FR. rewrite X in EQ, FR. rewrite concat_app in EQ. cbn [concat] in EQ. rewrite app_nil_r, <- app_assoc in EQ. apply app_inv_head in EQ. symmetry in EQ. apply Forall_app in FR. destruct FR as [_ FR]. destruct (Forall_inv FR) as (h' & l' & b' & -> & LL). cbn [app] in EQ. injection EQ as <- <- EQ. destruct b'; [cbn [length] in LL; lia|discriminate]. }
  subst rest. assert (X : rx s = Buf (h :: l :: body) /\ missing s = 256 * h + l - Z.of_nat (length body)).
  { destruct (rx s) as [|b|] eqn:RX; cbn [held] in A2; [discriminate| |exfalso; apply (i_err s I) in RX; destruct RX as (f & RX); now apply (NE f)]. destruct A2 as [<- [X|(h' & l' & b' & [= <- <- <-] & M & _)]]; [cbn in X; lia|easy]. }
  destruct X as [X M]. cbn [step]. destruct (fd s) as [f|]; [|easy]. rewrite G. unfold fd_cb, ser_read. rewrite X. replace (length (h :: l :: body) <? 2)%nat with false by (symmetry; apply Nat.ltb_ge; cbn; lia). cbv zeta. unfold fill.
  replace (300 <? length ((h :: l :: body) ++ firstn (Z.to_nat (missing s)) avail))%nat with true; [easy|]. symmetry. apply Nat.ltb_lt. rewrite app_length, firstn_length. cbn [length]. lia.
Qed.
(** after a read error the next read uses the freed buffer; nothing else does *)
Theorem C65_error_refuted k c vs s f w act r : run k (st_init c) vs = Ok s -> In (EReadErr f) (out s) -> fd s <> None -> step k s (Ready (Some r) w act) = Bad UseAfterFree.
Proof.
  intros R E F. destruct (reach_inv _ _ _ _ R) as [I _]. assert (X : rx s = Freed) by (apply (i_err s I); eauto). cbn [step]. destruct (fd s) as [g|]; [|easy]. destruct (reg s) eqn:G; [|apply (i_reg s I) in G; congruence]. unfold fd_cb, ser_read. now rewrite X.
Qed.
Theorem C65_freed k c vs s v : run k (st_init c) vs = Ok s -> step k s v = Bad UseAfterFree -> exists f, In (EReadErr f) (out s).
Proof.
  intros R H. destruct (reach_inv _ _ _ _ R) as [I _]. apply (i_err s I). destruct v as [cs|r w act]; cbn [step] in H; [apply execs_bad in H; discriminate|]. destruct (fd s) as [f|]; [|discriminate]. destruct (reg s); [|discriminate]. unfold fd_cb in H.
  destruct r as [r|]; [|cbn in H; destruct (w && wr s); discriminate]. destruct (ser_read k f s r act) as [[s1 b]|r'] eqn:E; [destruct (negb b && (w && wr s)); discriminate|]. injection H as ->. unfold ser_read in E. destruct (rx s) eqn:RX; [| |easy]; exfalso.
  all: destruct r as [|avail]; [discriminate|]; cbv zeta in E; unfold fill in E; destruct (_ <? 2)%nat; (destruct (300 <? _)%nat; [discriminate|]); [discriminate|]; (destruct (_ =? 0); [|discriminate]); (destruct (negb _); [discriminate|]); match type of E with context [execs ?kk ?aa ?x] => destruct (execs kk aa x) eqn:EX; [discriminate|injection E as ->; apply execs_bad in EX; discriminate] end.
Qed.
(** ** C66: sending goes on, the descriptor *)
Theorem C66_fifo k c vs s i : run k (st_init c) vs = Ok s -> waiting i [] (out s) = Some (queue i (links s)).
Proof. intros R. apply (reach_inv _ _ _ _ R). Qed.
Definition b2n (b : bool) : nat := if b then 1%nat else 0%nat.
Definition is_send (c : cmd) : bool := match c with CSend _ _ => true | _ => false end.
Lemma exec_room k s c s' : exec k s c = Ok s' -> sent (out s') = sent (out s) /\ (b2n (wr s') <= b2n (wr s) + b2n (is_send c))%nat.
Proof.
  intros H. destruct c as [|i|i|i m]; cbn [exec is_send b2n] in *.
  - destruct (setup k s) as [[s1 rc]|] eqn:P; [|discriminate]. injection H as <-. cbn [fst snd]. unfold setup in P.
    assert (SN : forall es e, (forall i m, e <> ETake i m) -> sent (es ++ [e]) = sent es). { intros es e N. unfold sent. rewrite flat_map_app. cbn. rewrite app_nil_r. destruct e; try now rewrite app_nil_r. now elim (N i m). }
    destruct (negb (k_open k _)); [injection P as <- <-; cbn [emit next out wr]; rewrite SN by easy; split; [easy|lia]|].
    destruct (negb (k_get k _)); [injection P as <- <-; cbn [emit next w_fd out wr]; rewrite !SN by easy; split; [easy|lia]|].
    destruct (negb (k_set k _)); [injection P as <- <-; cbn [emit next w_fd out wr]; rewrite !SN by easy; split; [easy|lia]|].
    destruct (reg _); [discriminate|]. destruct (negb (k_reg k _)); injection P as <- <-; cbn [emit next w_fd w_wr w_rx out wr b2n]; rewrite !SN by easy; (split; [easy|lia]).
  - injection H as <-. destruct (has i (links s)); [split; [easy|lia]|]. cbn [emit w_links out wr]. unfold sent. rewrite flat_map_app. cbn. rewrite app_nil_r. split; [easy|lia].
  - injection H as <-. destruct (has i (links s)); [|split; [easy|lia]]. cbn [emit w_links out wr]. unfold sent. rewrite flat_map_app. cbn. rewrite app_nil_r. split; [easy|lia].
  - injection H as <-. destruct (has i (links s)); [|split; [easy|lia]]. cbn [emit w_links w_wr out wr b2n]. unfold sent. rewrite flat_map_app. cbn. rewrite app_nil_r. split; [easy|lia].
Qed.
Definition count (cs : list cmd) : nat := length (filter is_send cs).
Lemma execs_room k cs : forall s s', execs k cs s = Ok s' -> sent (out s') = sent (out s) /\ (b2n (wr s') <= b2n (wr s) + count cs)%nat.
Proof.
  induction cs as [|c cs IH]; intros s s' H; cbn [execs] in H; [injection H as <-; split; [easy|lia]|]. destruct (exec k s c) as [s1|] eqn:E; [|discriminate]. destruct (exec_room _ _ _ _ E) as [A B]. destruct (IH _ _ H) as [C D]. split; [congruence|]. unfold count in *. cbn [filter]. destruct (is_send c); cbn [length b2n] in *; lia.
Qed.
Lemma write_room k f s : exists l, sent (out (ser_write k f s)) = sent (out s) ++ l /\ (length l <= 1)%nat /\ wr (ser_write k f s) = false.
Proof.
  unfold ser_write. cbn [w_wr links]. destruct (take (links s)) as [[[i m] q]|]; [|exists []; rewrite app_nil_r; split; [easy|]; split; [cbn; lia|easy]]. exists [m]. destruct (_ <? _)%nat; cbn [emit next w_links w_wr out wr]; unfold sent; rewrite !flat_map_app; cbn; rewrite ?app_nil_r; (split; [easy|]); (split; [lia|easy]).
Qed.
Lemma read_room k f s r act p : ser_read k f s r act = Ok p -> sent (out (fst p)) = sent (out s) /\ (b2n (wr (fst p)) <= b2n (wr s) + count act)%nat.
Proof.
  assert (SN : forall es e, (forall i m, e <> ETake i m) -> sent (es ++ [e]) = sent es). { intros es e N. unfold sent. rewrite flat_map_app. cbn. rewrite app_nil_r. destruct e; try now rewrite app_nil_r. now elim (N i m). }
  intros H. unfold ser_read in H. destruct (rx s); try discriminate; (destruct r as [|avail]; [injection H as <-; cbn [fst emit w_rx out wr]; rewrite SN by easy; split; [easy|lia]|]); cbv zeta in H; unfold fill in H; destruct (_ <? 2)%nat; (destruct (300 <? _)%nat; [discriminate|]).
  all: try (apply okinj in H; subst p; cbn [fst emit w_rx out wr]; rewrite SN by easy; split; [easy|lia]).
  all: destruct (_ =? 0); [|apply okinj in H; subst p; cbn [fst emit w_rx out wr]; rewrite SN by easy; split; [easy|lia]].
  all: destruct (negb _); [apply okinj in H; subst p; cbn [fst emit w_rx out wr]; rewrite !SN by easy; split; [easy|lia]|].
  all: match type of H with context [execs ?kk ?aa ?x] => destruct (execs kk aa x) as [s1|] eqn:EX; [|discriminate] end; apply okinj in H; subst p; cbn [fst]; destruct (execs_room _ _ _ _ EX) as [A B]; cbn [emit w_rx out wr] in A, B; rewrite !SN in A by easy; split; [exact A|exact B].
Qed.
Lemma step_room k s v s' : step k s v = Ok s' -> exists l, sent (out s') = sent (out s) ++ l /\ (length l + b2n (wr s') <= b2n (wr s) + count (cmds v))%nat.
Proof.
  intros H. destruct v as [cs|r w act]; cbn [step cmds] in *.
  - destruct (execs_room _ _ _ _ H) as [A B]. exists []. rewrite app_nil_r. split; [easy|cbn; lia].
  - assert (Z : s' = s -> exists l, sent (out s') = sent (out s) ++ l /\ (length l + b2n (wr s') <= b2n (wr s) + count act)%nat) by (intros ->; exists []; rewrite app_nil_r; split; [easy|cbn; lia]).
    destruct (fd s) as [f|]; [|injection H as <-; now apply Z]. destruct (reg s); [|injection H as <-; now apply Z]. unfold fd_cb in H.
    set (rr := match r with Some r => ser_read k f s r act | None => Ok (s, false) end) in *. assert (X : forall p, rr = Ok p -> sent (out (fst p)) = sent (out s) /\ (b2n (wr (fst p)) <= b2n (wr s) + count act)%nat). { intros p P. unfold rr in P. destruct r as [r|]; [now apply (read_room k f s r act)|]. injection P as <-. cbn [fst]. split; [easy|lia]. }
    destruct rr as [[s1 bad]|]; [|discriminate]. destruct (X _ eq_refl) as [A B]. cbn [fst] in *. destruct w; cbn [andb] in H; [|rewrite andb_false_r in H; injection H as <-; exists []; rewrite app_nil_r; cbn [length]; split; [easy|lia]].
    destruct (wr s) eqn:WR; [|rewrite andb_false_r in H; injection H as <-; exists []; rewrite app_nil_r; cbn [length]; split; [easy|lia]]. rewrite andb_true_r in H. destruct bad; cbn [negb] in H; injection H as <-; [exists []; rewrite app_nil_r; cbn [length]; split; [easy|lia]|].
    match goal with |- context [ser_write k ?g s1] => destruct (write_room k g s1) as (l & L1 & L2 & L3) end. exists l. rewrite L1, A. split; [easy|]. rewrite L3. cbn [b2n]. lia.
Qed.
(** messages leave one per call that sends: if nothing more is sent, at most one of the messages
    that wait is written, however often the port is ready *)
Theorem C66_one_per_send k vs : forall s s', run k s vs = Ok s' -> exists l, sent (out s') = sent (out s) ++ l /\ (length l <= b2n (wr s) + sends vs)%nat /\ (sends vs = 0%nat -> (length l <= 1)%nat).
Proof.
  assert (G : forall s s', run k s vs = Ok s' -> exists l, sent (out s') = sent (out s) ++ l /\ (length l + b2n (wr s') <= b2n (wr s) + sends vs)%nat).
  { induction vs as [|v r IH]; intros s s' H; cbn [run] in H; [injection H as <-; exists []; rewrite app_nil_r; cbn [length]; split; [easy|lia]|]. destruct (step k s v) as [s1|] eqn:E; [|discriminate]. destruct (step_room _ _ _ _ E) as (l & A & B). destruct (IH _ _ H) as (l' & C & D). exists (l ++ l'). rewrite C, A, app_assoc. split; [easy|]. rewrite app_length. unfold sends, count in *. cbn [flat_map]. rewrite filter_app, app_length. change (fun c => match c with CSend _ _ => true | _ => false end) with is_send in *. lia. }
  intros s s' H. destruct (G s s' H) as (l & A & B). exists l. split; [easy|]. split; [lia|]. intros Z. rewrite Z in B. destruct (wr s); cbn [b2n] in B; lia.
Qed.
(** a message sent while none waits goes out when the port is ready *)
Lemma take_one i m q : has i q = true -> (forall j, queue j q = []) -> NoDup (map fst q) -> exists q', take (append i m q) = Some (i, m, q').
Proof.
  intros H Q N. induction q as [|[j ms] r IH]; [discriminate|]. assert (ms = []) as -> by (specialize (Q j); cbn in Q; now rewrite Nat.eqb_refl in Q). cbn [append]. destruct (Nat.eqb_spec j i) as [->|E]; [eexists; reflexivity|]. cbn [take]. cbn [map fst] in N. inversion N as [|? ? NI NR]; subst.
  destruct IH as (q' & T); [cbn in H; destruct (Nat.eqb_spec j i); easy| |easy|rewrite T; eauto]. intros l. specialize (Q l). cbn in Q. destruct (Nat.eqb_spec j l) as [->|]; [|easy]. clear -NI. induction r as [|[a b] r IH]; [easy|]. cbn in *. destruct (Nat.eqb_spec a l) as [->|]; [tauto|]. apply IH. tauto.
Qed.
Theorem C66_prompt k c vs s f i m : run k (st_init c) vs = Ok s -> reg s = true -> fd s = Some f -> has i (links s) = true -> (forall j, queue j (links s) = []) ->
  exists s' o, run k s [App [CSend i m]; Ready None true []] = Ok s' /\ packed m o /\ sent (out s') = sent (out s) ++ [m] /\ wire (out s') = wire (out s) ++ firstn (k_write k (tick s)) o /\ (In EShort (out s') -> In EShort (out s) \/ (k_write k (tick s) < length o)%nat).
Proof.
  intros R G F H Q. destruct (reach_inv _ _ _ _ R) as [I _]. destruct (take_one i m (links s) H Q (i_ids s I)) as (q' & T). cbn [run step execs exec]. rewrite H. cbn [emit w_wr w_links fd reg wr andb]. rewrite F, G. unfold fd_cb. cbn [negb andb fd emit w_wr w_links]. rewrite F. eexists _, (build m). split; [reflexivity|]. split; [apply build_packed|].
  unfold ser_write. cbn [w_wr emit w_links links tick]. rewrite T. destruct (Nat.ltb_spec (k_write k (tick s)) (length (build m))) as [L|L]; cbn [emit next w_wr w_links out tick]; unfold sent, wire; rewrite !flat_map_app; cbn [flat_map app]; rewrite ?app_nil_r; (split; [easy|]); (split; [easy|]); [auto|].
  intros X. left. repeat (apply in_app_or in X; destruct X as [X|[X|[]]]; [|discriminate]). exact X.
Qed.
(** an update that returns 0 opened one descriptor and put it in the select loop; one that fails
    says so *)
Theorem C66_update k s s' : exec k s CUpdate = Ok s' -> exists rc es, out s' = out s ++ es ++ [ERet rc] /\
  (rc = 0 -> exists f, es = [EOpen f; EReg f] /\ fd s' = Some f /\ reg s' = true /\ reg s = false) /\
  (rc <> 0 -> rc < 0 /\ reg s' = reg s /\ exists n, k_open k n = false \/ k_get k n = false \/ k_set k n = false \/ k_reg k n = false).
Proof.
  intros H. cbn [exec] in H. destruct (setup k s) as [[s1 rc]|] eqn:P; [|discriminate]. injection H as <-. cbn [fst snd]. unfold setup in P.
  destruct (k_open k (tick s)) eqn:K1; cbn [negb] in P; [|injection P as <- <-; exists (-1), []; split; [easy|]; split; [easy|]; intros _; split; [lia|]; split; [easy|]; eauto].
  destruct (k_get k _) eqn:K2; cbn [negb] in P; [|injection P as <- <-; eexists (-1), [EOpen _]; split; [cbn; now rewrite <- app_assoc|]; split; [easy|]; intros _; split; [lia|]; split; [easy|]; eauto].
  destruct (k_set k _) eqn:K3; cbn [negb] in P; [|injection P as <- <-; eexists (-1), [EOpen _]; split; [cbn; now rewrite <- app_assoc|]; split; [easy|]; intros _; split; [lia|]; split; [easy|]; eauto 6].
  cbn [reg w_wr w_rx next emit w_fd] in P. destruct (reg s) eqn:RG; [discriminate|]. destruct (k_reg k _) eqn:K4; cbn [negb] in P; injection P as <- <-.
  - eexists 0, [EOpen _; EReg _]. split; [cbn; now rewrite <- !app_assoc|]. split; [|easy]. intros _. eexists. split; [reflexivity|]. easy.
  - eexists (-1), [EOpen _; EClose _]. split; [cbn; now rewrite <- !app_assoc|]. split; [easy|]. intros _. split; [lia|]. split; [easy|]. eauto 6.
Qed.
(** a descriptor is put in the select loop twice only if the application updates twice *)
Lemma setup_reg k s p : setup k s = Ok p -> reg (fst p) = true -> reg s = true \/ snd p = 0.
Proof.
  intros P. unfold setup in P. destruct (negb (k_open k _)); [injection P as <-; now left|]. destruct (negb (k_get k _)); [injection P as <-; now left|]. destruct (negb (k_set k _)); [injection P as <-; now left|]. destruct (reg _); [discriminate|]. destruct (negb (k_reg k _)); injection P as <-; [now left|now right].
Qed.
Definition is_update (c : cmd) : bool := match c with CUpdate => true | _ => false end.
Lemma execs_twice k cs : forall s, match execs k cs s with Ok s' => (b2n (reg s') <= b2n (reg s) + length (filter is_update cs))%nat | Bad _ => (2 <= b2n (reg s) + length (filter is_update cs))%nat end.
Proof.
  induction cs as [|c cs IH]; intros s; cbn [execs]; [lia|]. destruct (exec k s c) as [s1|] eqn:E.
  - specialize (IH s1). assert (X : (b2n (reg s1) <= b2n (reg s) + b2n (is_update c))%nat). { destruct c; cbn [exec is_update b2n] in *; [destruct (reg s1), (reg s); cbn; lia| | |]; injection E as <-; destruct (has _ _); cbn; lia. }
    destruct (execs k cs s1); cbn [filter]; destruct (is_update c); cbn [length b2n] in *; lia.
  - destruct c; cbn [exec] in E; try discriminate. destruct (setup k s) as [p|r'] eqn:P; [discriminate|]. unfold setup in P. destruct (negb (k_open k _)); [discriminate|]. destruct (negb (k_get k _)); [discriminate|]. destruct (negb (k_set k _)); [discriminate|]. cbn [reg w_wr w_rx next emit w_fd] in P. destruct (reg s); [|destruct (negb (k_reg k _)); discriminate]. cbn. lia.
Qed.
Theorem C66_twice k c vs : run k (st_init c) vs = Bad Twice -> (2 <= updates vs)%nat.
Proof.
  assert (G : forall vs s, match run k s vs with Ok s' => (b2n (reg s') <= b2n (reg s) + updates vs)%nat | Bad Twice => (2 <= b2n (reg s) + updates vs)%nat | Bad _ => True end).
  { induction vs0 as [|v r IH]; intros s; cbn [run]; [lia|]. assert (U : updates (v :: r) = (length (filter is_update (cmds v)) + updates r)%nat) by (unfold updates; cbn [flat_map]; now rewrite filter_app, app_length). rewrite U.
    assert (ST : match step k s v with Ok s1 => (b2n (reg s1) <= b2n (reg s) + length (filter is_update (cmds v)))%nat | Bad Twice => (2 <= b2n (reg s) + length (filter is_update (cmds v)))%nat | Bad _ => True end).
    { destruct v as [cs|rr w act]; cbn [step cmds]; [pose proof (execs_twice k cs s) as X; destruct (execs k cs s) as [|[]]; auto|]. destruct (fd s) as [f|]; [|lia]. destruct (reg s) eqn:RG; [|rewrite RG; cbn; lia]. unfold fd_cb.
      assert (W : forall g s1, reg (ser_write k g s1) = reg s1) by (intros g s1; unfold ser_write; destruct (take _) as [[[? ?] ?]|]; [|easy]; destruct (_ <? _)%nat; easy).
      assert (RR : match match rr with Some r => ser_read k f s r act | None => Ok (s, false) end with Ok p => (b2n (reg (fst p)) <= 1 + length (filter is_update act))%nat | Bad Twice => (2 <= 1 + length (filter is_update act))%nat | Bad _ => True end).
      { destruct rr as [r0|]; [|cbn [fst]; rewrite RG; cbn; lia]. unfold ser_read. destruct (rx s); try exact Logic.I; (destruct r0 as [|avail]; [cbn [fst emit w_rx reg]; rewrite RG; cbn; lia|]); cbv zeta; unfold fill; destruct (_ <? 2)%nat; (destruct (300 <? _)%nat; [exact Logic.I|]).
        all: try (cbn [fst emit w_rx reg]; rewrite RG; cbn; lia).
        all: destruct (_ =? 0); [|cbn [fst emit w_rx reg]; rewrite RG; cbn; lia].
        all: destruct (negb _); [cbn [fst emit w_rx reg]; rewrite RG; cbn; lia|].
        all: match goal with |- context [execs ?kk ?aa ?x] => pose proof (execs_twice kk aa x) as X; destruct (execs kk aa x) as [s1|[]] end; cbn [fst emit w_rx reg] in *; rewrite ?RG in X; cbn [b2n] in X; try exact Logic.I; lia. }
      destruct (match rr with Some r0 => ser_read k f s r0 act | None => Ok (s, false) end) as [[s1 b]|r1]; [|cbn [b2n]; destruct r1; auto]. cbn [fst] in RR. cbn [b2n]. destruct (negb b && (w && wr s)); [rewrite W|]; lia. }
    destruct (step k s v) as [s1|r1]; [specialize (IH s1); destruct (run k s1 r) as [s2|r2]; [lia|destruct r2; auto; lia]|destruct r1; auto; lia]. }
  intros H. specialize (G vs (st_init c)). rewrite H in G. cbn [st_init reg b2n] in G. lia.
Qed.
(** ** what does not hold; examples *)
Definition k0 : kern := mkK (fun _ => true) (fun _ => true) (fun _ => true) (fun _ => true) (fun _ => 400%nat).
Definition k_noget (n : nat) : kern := mkK (fun _ => true) (fun i => negb (Nat.eqb i n)) (fun _ => true) (fun _ => true) (fun _ => 400%nat).
Definition k_short (n w : nat) : kern := mkK (fun _ => true) (fun _ => true) (fun _ => true) (fun _ => true) (fun i => if Nat.eqb i n then w else 400%nat).
Definition w1 := Ready None true [].
(** two messages sent, the port ready three times: the second waits for ever *)
Theorem C66_stall_refuted : exists s, run k0 (st_init true) [App [CUpdate; CLink 1; CSend 1 [1]; CSend 1 [2]]; w1; w1; w1] = Ok s /\ queue 1 (links s) = [[2]] /\ wr s = false.
Proof. eexists. split; [vm_compute; reflexivity|]. split; vm_compute; reflexivity. Qed.
(** a message is lost by a short write, and the frame after it is taken for its rest *)
Theorem C65_short_refuted : exists k s s', run k (st_init true) [App [CUpdate; CLink 1; CSend 1 [11;12;13]]; w1; App [CSend 1 [21;22]]; w1] = Ok s /\ sent (out s) = [[11;12;13];[21;22]] /\
  run k0 (st_init true) (App [CUpdate] :: Ready (Some (Rd (wire (out s)))) false [] :: [Ready (Some (Rd (skipn 2 (wire (out s))))) false []]) = Ok s' /\ map snd (received (out s')) = [Some [0;10;0]].
Proof. exists (k_short 4 10). eexists _, _. split; [vm_compute; reflexivity|]. split; [vm_compute; reflexivity|]. split; [vm_compute; reflexivity|]. vm_compute. reflexivity. Qed.
(** a setup that fails leaves its descriptor open *)
Theorem C66_leak_refuted : exists k s, run k (st_init true) [App [CUpdate; CUpdate]] = Ok s /\ opened (out s) = [0%nat; 2%nat] /\ closed (out s) = [] /\ reg s = true /\ fd s = Some 2%nat.
Proof. exists (k_noget 1). eexists. split; [vm_compute; reflexivity|]. repeat split; vm_compute; reflexivity. Qed.
(** an update of a line that is up puts it in the select loop twice; if it fails early, the line
    goes on with a descriptor that was not set up *)
Theorem C66_again_refuted : run k0 (st_init true) [App [CUpdate; CUpdate]] = Bad Twice.
Proof. vm_compute. reflexivity. Qed.
Theorem C66_swap_refuted : exists k s, run k (st_init true) [App [CUpdate; CUpdate]; Ready (Some (Rd [0])) false []] = Ok s /\ out s = [EOpen 0; EReg 0; ERet 0; EOpen 4; ERet (-1); ERead 4 [0]].
Proof. exists (k_noget 5). eexists. split; vm_compute; reflexivity. Qed.
(** a message that comes while no callback is set is never freed *)
Theorem C66_no_callback_refuted : exists s, run k0 (st_init false) [App [CUpdate]; Ready (Some (Rd [0;1])) false []; Ready (Some (Rd [9])) false []] = Ok s /\ leaked (out s) = [[0;1;9]].
Proof. eexists. split; vm_compute; reflexivity. Qed.
(** two ends, in pieces *)
Definition tx_end := [App [CUpdate; CLink 1; CLink 2; CSend 2 [7;8]]; w1; App [CSend 1 []]; w1; App [CSend 1 [9]]; w1].
Example C65_round_trip_met : exists s s', run k0 (st_init true) tx_end = Ok s /\ sent (out s) = [[7;8];[];[9]] /\ ~ In EShort (out s) /\
  run k0 (st_init true) [App [CUpdate]; Ready (Some (Rd [0])) false []; Ready (Some (Rd [10;99])) false []; Ready (Some (Rd [0;7;1;62;0])) false []; Ready (Some (Rd [0;2;58;7;8])) false []; Ready (Some (Rd [0;8])) false [];
     Ready (Some (Rd [0;7;1;62;0;0;0;56;0])) false []; Ready (Some (Rd [0;9])) false []; Ready (Some (Rd [0;7;1;62;0;0;1;57;9])) false []] = Ok s' /\ wire (out s) = reads (out s') ++ [] /\ map snd (received (out s')) = [Some [7;8]; None; Some [9]].
Proof. eexists _, _. split; [vm_compute; reflexivity|]. split; [vm_compute; reflexivity|]. split; [cbn [out]; cbn; intros H; repeat (destruct H as [H|H]; [discriminate|]); easy|]. split; [vm_compute; reflexivity|]. split; vm_compute; reflexivity. Qed.
Example C65_overflow_met : exists s, run k0 (st_init true) [App [CUpdate]; Ready (Some (Rd [1;43])) false []] = Ok s /\ reg s = true /\ fd s = Some 0%nat /\ reads (out s) = concat [] ++ [1;43] /\ forall f, ~ In (EReadErr f) (out s).
Proof. eexists. split; [vm_compute; reflexivity|]. split; [vm_compute; reflexivity|]. split; [vm_compute; reflexivity|]. split; [vm_compute; reflexivity|]. intros f. cbn. intros H. repeat (destruct H as [H|H]; [discriminate|]). easy. Qed.
Example C66_prompt_met : exists s, run k0 (st_init true) [App [CUpdate; CLink 1; CLink 2]] = Ok s /\ reg s = true /\ fd s = Some 0%nat /\ has 2 (links s) = true /\ links s = [(1%nat, []); (2%nat, [])].
Proof. eexists. split; [vm_compute; reflexivity|]. repeat split; vm_compute; reflexivity. Qed.
