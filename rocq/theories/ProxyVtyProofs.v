(** Proofs for C74. *)
From Coq Require Import List Arith Lia Bool ZArith Ascii String DecimalString.
From Coq Require Decimal DecimalN DecimalPos.
From Verif Require Import Base ProxyModel ProxyProofs ProxyProps ProxyVtyModel ProxyVtySpec.
From Verif Require VtyModel VtyProofs.
Import ListNotations.
Open Scope string_scope.
Open Scope Z_scope.

(** ** Octets and numbers *)
Lemma chr_code a : chr (code a) = a.
Proof. unfold chr, code. rewrite N2Z.id. apply ascii_N_embedding. Qed.
Lemma str_codes s : str (codes s) = s.
Proof. induction s as [|a s IH]; [easy|]. cbn [codes str]. now rewrite chr_code, IH. Qed.
Lemma codes_len s : List.length (codes s) = String.length s.
Proof. induction s as [|a s IH]; [easy|]. cbn. now rewrite IH. Qed.
Lemma codes_inj a b : codes a = codes b -> a = b.
Proof. intros H. now rewrite <- (str_codes a), H, str_codes. Qed.
Definition byte (z : Z) : Prop := 0 <= z < 256.
Lemma code_byte a : byte (code a).
Proof. unfold code, byte. pose proof (N_ascii_bounded a). lia. Qed.
Lemma code_chr z : byte z -> code (chr z) = z.
Proof. intros B. unfold code, chr. unfold byte in B. rewrite N_ascii_embedding by lia. lia. Qed.
Lemma codes_bytes s : Forall byte (codes s).
Proof. induction s; constructor; [apply code_byte|easy]. Qed.
Lemma codes_str l : Forall byte l -> codes (str l) = l.
Proof. induction 1 as [|z l B F IH]; [easy|]. cbn [str codes]. now rewrite code_chr, IH. Qed.
Lemma cut_word w n : VtyProofs.word w -> (0 < n)%nat -> VtyProofs.word (str (firstn n (codes w))).
Proof.
  intros [E N] L. destruct w as [|a w]; [easy|]. destruct n as [|n]; [lia|]. split; [easy|]. clear L E. revert N. generalize (String a w). intros x. clear a w. revert x. generalize (S n). clear n.
  assert (G : forall n x, VtyProofs.nospace x = true -> VtyProofs.nospace (str (firstn n (codes x))) = true).
  { induction n as [|n IH]; intros x N; [easy|]. destruct x as [|a x]; [easy|]. cbn [codes firstn str VtyProofs.nospace] in *. apply andb_prop in N as [A N]. now rewrite chr_code, A, IH. }
  intros n x. apply G.
Qed.

Ltac dm := Z.div_mod_to_equations; lia.
Lemma hex_nibble z : 0 <= z < 16 -> digit (hexd z) = Some z /\ VtyModel.is_space (hexd z) = false.
Proof. intros H. assert (X : z = 0 \/ z = 1 \/ z = 2 \/ z = 3 \/ z = 4 \/ z = 5 \/ z = 6 \/ z = 7 \/ z = 8 \/ z = 9 \/ z = 10 \/ z = 11 \/ z = 12 \/ z = 13 \/ z = 14 \/ z = 15) by lia.
  repeat (destruct X as [->|X]; [split; reflexivity|]). subst z. split; reflexivity. Qed.
Lemma strtoul_0x r : strtoul16 (String "0" (String "x" r)) = if 2^64 - 1 <? digits 16 0 r then 2^64 - 1 else digits 16 0 r.
Proof. reflexivity. Qed.
Lemma strtoul_hex2 z : 0 <= z < 256 -> strtoul16 (hex2 z) = z.
Proof.
  intros H. destruct (hex_nibble (z / 16)) as [D1 _]; [dm|]. destruct (hex_nibble (z mod 16)) as [D2 _]; [dm|].
  unfold hex2. rewrite strtoul_0x.
  cbn [digits]. rewrite D1. replace (z / 16 <? 16) with true by dm. cbn [digits]. rewrite D2. replace (z mod 16 <? 16) with true by dm. cbn [digits].
  replace ((0 * 16 + z / 16) * 16 + z mod 16) with z by dm. replace (2 ^ 64 - 1 <? z) with false; [easy|]. symmetry. apply Z.ltb_ge. change (2 ^ 64) with 18446744073709551616. lia.
Qed.
Lemma hex2_word z : 0 <= z < 256 -> VtyProofs.word (hex2 z).
Proof. intros H. destruct (hex_nibble (z / 16)) as [_ D1]; [dm|]. destruct (hex_nibble (z mod 16)) as [_ D2]; [dm|]. split; [easy|]. unfold hex2. cbn [VtyProofs.nospace]. rewrite D1, D2. easy. Qed.

Lemma digits_acc d : forall acc, digits 10 (Zpos acc) (NilEmpty.string_of_uint d) = Zpos (Pos.of_uint_acc d acc).
Proof.
  induction d as [|d IH|d IH|d IH|d IH|d IH|d IH|d IH|d IH|d IH|d IH]; intros acc; [reflexivity|..]; cbn [NilEmpty.string_of_uint digits Pos.of_uint_acc];
    match goal with |- context [digit ?a] => let v := eval vm_compute in (digit a) in change (digit a) with v end; cbv iota; (* *)
    match goal with |- context [?a <? 10] => change (a <? 10) with true end; cbv iota; rewrite <- IH; f_equal; lia.
Qed.
Lemma digits_uint d : digits 10 0 (NilEmpty.string_of_uint d) = Z.of_N (N.of_uint d).
Proof.
  induction d as [|d IH|d IH|d IH|d IH|d IH|d IH|d IH|d IH|d IH|d IH]; [reflexivity|exact IH|..]; cbn [NilEmpty.string_of_uint digits];
    match goal with |- context [digit ?a] => let v := eval vm_compute in (digit a) in change (digit a) with v end; cbv iota;
    match goal with |- context [?a <? 10] => change (a <? 10) with true end; cbv iota;
    match goal with |- context [digits 10 ?a _] => let v := eval vm_compute in a in change a with v end; rewrite digits_acc; reflexivity.
Qed.
Lemma digit_sign d : sign (NilEmpty.string_of_uint d) = (false, NilEmpty.string_of_uint d).
Proof. destruct d; reflexivity. Qed.
Lemma num_uint z : 0 <= z -> VtyModel.num z = NilEmpty.string_of_uint (N.to_uint (Z.to_N z)).
Proof. destruct z; [easy|easy|lia]. Qed.
Lemma atoi_num z : 0 <= z < 2^31 -> atoi (VtyModel.num z) = z.
Proof.
  intros H. rewrite num_uint by lia. unfold atoi. rewrite digit_sign, digits_uint, DecimalN.Unsigned.of_to, Z2N.id by lia. change (2^31) with 2147483648 in *. change (2^32) with 4294967296. change (2^63) with 9223372036854775808.
  replace (_ <? z) with false by lia. rewrite Z.mod_small; lia.
Qed.
Lemma atoi_wrap z : 0 <= z < 2^63 -> atoi (VtyModel.num z) mod 65536 = z mod 65536.
Proof.
  intros H. rewrite num_uint by lia. unfold atoi. rewrite digit_sign, digits_uint, DecimalN.Unsigned.of_to, Z2N.id by lia. change (2^31) with 2147483648 in *. change (2^32) with 4294967296. change (2^63) with 9223372036854775808 in *.
  replace (_ <? z) with false by lia. dm.
Qed.

(** ** Adding and deleting routes: the shape of the new state *)
Lemma view_set l sh rs : (forall x, In x l -> s_id x = s_id sh -> s_src x = s_src sh /\ s_dst x = s_dst sh) -> flat_map (rt_of (set_shared l sh)) rs = flat_map (rt_of l) rs.
Proof. intros H. apply flat_ext. intros r _. now apply set_shared_pair. Qed.
Lemma map_route_shape sh a b sh' : map_route sh a b = Some sh' -> s_id sh' = s_id sh /\ s_src sh' = s_src sh /\ s_dst sh' = s_dst sh /\
  put (s_stab sh) (Z.to_nat a) b = Some (s_stab sh') /\ put (s_dtab sh) (Z.to_nat b) a = Some (s_dtab sh') /\ put (s_smap sh) (Z.to_nat a) true = Some (s_smap sh') /\ put (s_dmap sh) (Z.to_nat b) true = Some (s_dmap sh').
Proof.
  unfold map_route. destruct (put (s_stab sh) _ _); [|easy]. destruct (put (s_dtab sh) _ _); [|easy]. destruct (put (s_smap sh) _ _); [|easy]. destruct (put (s_dmap sh) _ _); [|easy].
  intros H. injection H as <-. cbn. auto 10.
Qed.
Definition empty_shared (id a b : nat) : shared := mkS id a b 0 (repeat false 256) (repeat 0 256) (repeat false 256) (repeat 0 256).
Lemma route_add_shape s n1 v1 n2 v2 bound s' : Inv s -> route_add s n1 v1 n2 v2 bound = Some (s', Ok) ->
  exists a b, find_src s n1 = Some a /\ find_dst s n1 n2 = Some b /\ i_type a = T_BIND /\ i_type b = T_CONNECT /\ 0 <= uint32 v1 < 256 /\ 0 <= uint32 v2 < 256 /\
    insts s' = add_ref 1 (i_id a) (i_id b) (insts s) /\ conns s' = conns s /\ view s' = (view s ++ [(i_id a, uint32 v1, i_id b, uint32 v2)])%list /\
    hd_error (pairs (view s) (i_id a) (i_id b)) <> Some (uint32 v1, uint32 v2) /\
    ((exists sh sh', In sh (shareds s) /\ s_src sh = i_id a /\ s_dst sh = i_id b /\ map_route sh (uint32 v1) (uint32 v2) = Some sh' /\ shareds s' = set_shared (shareds s) sh' /\ links s' = links s) \/
     (bound = true /\ (forall sh, In sh (shareds s) -> ~ (s_src sh = i_id a /\ s_dst sh = i_id b)) /\
      exists sh', map_route (empty_shared (next s) (i_id a) (i_id b)) (uint32 v1) (uint32 v2) = Some sh' /\ shareds s' = (shareds s ++ [sh'])%list /\ map l_port (links s') = (map l_port (links s) ++ [i_port a])%list)).
Proof.
  intros V E. unfold route_add in E. destruct (route_args s n1 v1 n2 v2) as [[[[a ss] b] ds]|] eqn:A; [|discriminate E].
  pose proof (route_args_spec _ _ _ _ _ _ _ _ _ A) as (Ia & Ib & Na & Nb & Ta & Tb & Bs & Bd & -> & ->).
  assert (F : find_src s n1 = Some a /\ find_dst s n1 n2 = Some b).
  { unfold route_args in A. destruct (find_src s n1) as [x|]; [|easy]. destruct (find_dst s n1 n2) as [y|]; [|easy]. destruct (i_type x), (i_type y); try easy. destruct (_ || _); [easy|]. injection A as -> ->. easy. }
  destruct F as [Fa Fb]. exists a, b.
  do 6 (split; [assumption|]).
  pose proof (find_routeM_spec s (fun _ sh => pair_is (i_id a) (i_id b) sh) (routes s) V (fun r H => H)) as W.
  destruct (find_routeM _ _ _) as [[[r sh]|]|]; [| |easy].
  - destruct (_ && _) eqn:NE; [discriminate E|]. destruct (map_route sh _ _) as [sh'|] eqn:M; [|discriminate E]. injection E as <-. cbn [insts conns routes shareds links view]. 
    destruct W as (l1 & l2 & RR & S1 & S2 & PI & FST). unfold pair_is in PI. apply andb_true_iff in PI as [P1 P2]. apply Nat.eqb_eq in P1, P2.
    destruct (map_route_shape _ _ _ _ M) as (M1 & M2 & M3 & _).
    split; [reflexivity|]. split; [reflexivity|]. split; [|split].
    + unfold view. cbn [routes shareds]. rewrite view_app. rewrite !view_set by (intros x X1 X2; rewrite M2, M3; assert (x = sh) by (apply (id_inj s_id (shareds s)); [apply (I_ns s V)|easy|easy|congruence]); subst x; easy).
      f_equal. cbn [flat_map app]. unfold rt_of. cbn [r_shared r_ss r_ds]. rewrite M1, (shared_pair_in _ sh (I_ns s V) S1), P1, P2. reflexivity.
    + unfold view. rewrite RR, view_app, pairs_app. cbn [flat_map]. unfold rt_of at 2. rewrite <- S2, (shared_pair_in _ sh (I_ns s V) S1). cbn [app]. rewrite P1, P2, pairs_cons.
      assert (N : pairs (flat_map (rt_of (shareds s)) l1) (i_id a) (i_id b) = []).
      { destruct (pairs (flat_map (rt_of (shareds s)) l1) (i_id a) (i_id b)) as [|[p q] l] eqn:Q; [easy|exfalso].
        assert (J : In (p, q) ((p, q) :: l)) by now left. rewrite <- Q in J. apply in_pairs in J. apply in_flat_map in J as (r' & J1 & J2).
        assert (R' : In r' (routes s)) by (rewrite RR; apply in_app_iff; now left).
        destruct (I_r s V r' R') as (_ & _ & x & X1 & X2). unfold rt_of in J2. rewrite <- X2, (shared_pair_in _ x (I_ns s V) X1) in J2. destruct J2 as [J2|[]].
        injection J2 as E3 _ E4 _. specialize (FST r' x J1 X1 X2). unfold pair_is in FST. rewrite E3, E4, !Nat.eqb_refl in FST. easy. }
      rewrite N. cbn [app hd_error]. intros E. injection E as E1 E2. rewrite E1, E2, !Z.eqb_refl in NE. easy.
    + left. exists sh, sh'. auto 10.
  - destruct bound; [|discriminate E]. cbn [negb] in E. destruct (map_route _ _ _) as [sh'|] eqn:M; [|discriminate E]. injection E as <-. cbn [insts conns routes shareds links].
    destruct (map_route_shape _ _ _ _ M) as (M1 & M2 & M3 & _). cbn [s_id s_src s_dst] in M1, M2, M3.
    assert (NP : forall sh, In sh (shareds s) -> ~ (s_src sh = i_id a /\ s_dst sh = i_id b)).
    { intros sh S [P1 P2]. destruct (shared_used s sh V S) as (r & R1 & R2). specialize (W r sh R1 S (eq_sym R2)). unfold pair_is in W. rewrite P1, P2, !Nat.eqb_refl in W. easy. }
    split; [reflexivity|]. split; [reflexivity|]. split; [|split].
    + unfold view. cbn [routes shareds]. rewrite view_app. f_equal.
      * apply flat_ext. intros r R. destruct (I_r s V r R) as (_ & _ & x & X1 & X2). apply shared_pair_snoc. rewrite M1, <- X2. pose proof (I_ls s V x X1). lia.
      * cbn [flat_map app]. unfold rt_of. cbn [r_shared r_ss r_ds]. replace (shared_pair (shareds s ++ [sh']) (next s)) with (Some (i_id a, i_id b)); [reflexivity|].
        symmetry. rewrite <- M1. rewrite shared_pair_in; [now rewrite M2, M3| |apply in_app_iff; right; now left]. rewrite map_app. apply nodup_snoc; [apply (I_ns s V)|].
        rewrite M1. intros J. apply in_map_iff in J as (y & Y1 & Y2). apply (I_ls s V) in Y2. lia.
    + destruct (pairs (view s) (i_id a) (i_id b)) as [|[p q] l] eqn:Q; [easy|exfalso]. assert (J : In (p, q) ((p, q) :: l)) by now left. rewrite <- Q in J. apply in_pairs in J.
      apply (in_view s V) in J. destruct J as (r & sh & _ & J1 & _ & J2 & J3 & _). apply (NP sh J1). auto.
    + right. split; [reflexivity|]. split; [exact NP|]. exists sh'. rewrite map_app. auto.
Qed.
Lemma unmap_route_shape sh a b sh' : unmap_route sh a b = Some sh' -> s_id sh' = s_id sh /\ s_src sh' = s_src sh /\ s_dst sh' = s_dst sh.
Proof.
  unfold unmap_route. destruct (put (s_smap sh) _ _); [|easy]. destruct (put (s_dmap sh) _ _); [|easy]. destruct (put (s_stab sh) _ _); [|easy]. destruct (put (s_dtab sh) _ _); [|easy].
  intros H. injection H as <-. cbn. auto.
Qed.
Lemma route_del_shape s n1 v1 n2 v2 s' : Inv s -> route_del s n1 v1 n2 v2 = Some (s', Ok) ->
  exists a b sh sh', insts s' = add_ref (-1) a b (insts s) /\ links s' = links s /\ In sh (shareds s) /\ s_id sh' = s_id sh /\ s_src sh' = s_src sh /\ s_dst sh' = s_dst sh /\ shareds s' = set_shared (shareds s) sh'.
Proof.
  intros V E. unfold route_del in E. destruct (route_args s n1 v1 n2 v2) as [[[[a ss] b] ds]|] eqn:A; [|discriminate E].
  pose proof (find_routeM_spec s (fun r sh => pair_is (i_id a) (i_id b) sh && (r_ss r =? ss) && (r_ds r =? ds)) (routes s) V (fun r H => H)) as W.
  destruct (find_routeM _ _ _) as [[[r sh]|]|]; [|discriminate E|easy]. destruct (_ =? 0); [discriminate E|]. destruct (unmap_route sh ss ds) as [sh'|] eqn:U; [|discriminate E].
  injection E as <-. destruct W as (l1 & l2 & _ & S1 & _). apply unmap_route_shape in U as (U1 & U2 & U3). exists (i_id a), (i_id b), sh, sh'. cbn. auto 10.
Qed.
Lemma add_ret s n1 v1 n2 v2 b s' r : Inv s -> route_add s n1 v1 n2 v2 b = Some (s', r) -> s' = s /\ r = Warn \/ r = Ok.
Proof. intros V E. destruct (route_add_spec s n1 v1 n2 v2 b V) as [E'|(a & b' & t & i' & E' & _)]; rewrite E' in E; injection E as <- <-; auto. Qed.
Lemma del_ret s n1 v1 n2 v2 s' r : Inv s -> route_del s n1 v1 n2 v2 = Some (s', r) -> s' = s /\ r = Warn \/ r = Ok.
Proof.
  intros V E. unfold route_del in E. destruct (route_args _ _ _ _ _) as [[[[a ss] b] ds]|]; [|injection E as <- <-; auto].
  destruct (find_routeM _ _ _) as [[[x sh]|]|]; [|injection E as <- <-; auto|discriminate E]. destruct (_ =? 0); [discriminate E|]. destruct (unmap_route _ _ _); [|discriminate E]. injection E as <- <-. auto.
Qed.

(** ** Events *)
Definition ev_op (k : kern) (s : st) (e : ev) : option op :=
  match e with
  | Typed cfg t =>
    match parse cfg (VtyModel.words t) with
    | Some (CInst n b a p) => Some (InstAdd (codes n) (if b then T_BIND else T_CONNECT) (codes a) (atoi p))
    | Some (CNoInst n) => Some (InstDel (codes n))
    | Some (CRoute n1 v1 n2 v2) => Some (RouteAdd (codes n1) (strtoul16 v1) (codes n2) (strtoul16 v2) (k (ports s) (wanted s (codes n1))))
    | Some (CNoRoute n1 v1 n2 v2) => Some (RouteDel (codes n1) (strtoul16 v1) (codes n2) (strtoul16 v2))
    | _ => None
    end
  | Net n => Some (net_op n)
  end.
Lemma vstep_op k s e s' x : vstep k s e = Some (s', x) -> match ev_op k s e with Some o => exists y, step s o = Some (s', y) | None => s' = s end.
Proof.
  destruct e as [cfg t|n]; cbn [vstep ev_op].
  - destruct (parse cfg (VtyModel.words t)) as [c|]; [|intros H; now injection H as <-]. destruct c; cbn [exec step]; intros H.
    + destruct (instance_add _ _ _ _ _) as [t0 r]. injection H as <- <-. eauto.
    + destruct (instance_del _ _) as [[t0 r]|]; [|discriminate H]. injection H as <- <-. eauto.
    + now injection H as <-.
    + destruct (route_add _ _ _ _ _ _) as [[t0 r]|]; [|discriminate H]. injection H as <- <-. eauto.
    + destruct (route_del _ _ _ _ _) as [[t0 r]|]; [|discriminate H]. injection H as <- <-. eauto.
    + destruct (all_routes _ _); [|discriminate H]. now injection H as <-.
  - destruct (step s (net_op n)) as [[t0 r]|]; [|discriminate]. intros H. injection H as <- <-. eauto.
Qed.
Lemma vstep_reach k s e s' x : reach s -> vstep k s e = Some (s', x) -> reach s'.
Proof. intros R H. apply vstep_op in H. destruct (ev_op k s e) as [o|]; [|now subst s']. destruct H as [y H]. econstructor; eassumption. Qed.
Lemma hist_reach k P s : hist k P s -> reach s.
Proof. induction 1; [constructor|]. eapply vstep_reach; eassumption. Qed.
Lemma hist_dreach k s : hist k one_to_one s -> dreach s.
Proof.
  induction 1 as [|s e s' x H IH S P]; [constructor|]. apply vstep_op in S. destruct (ev_op k s e) as [o|]; [|now subst s']. destruct S as [y S]. econstructor; eassumption.
Qed.

(** ** Stored strings *)
Record stored (i : inst) : Prop := {
  t_name : VtyProofs.word (str (i_name i)); t_nb : Forall byte (i_name i); t_len : (List.length (i_name i) <= 15)%nat;
  t_addr : VtyProofs.word (str (i_addr i)); t_ab : Forall byte (i_addr i); t_port : 0 <= i_port i < 65536
}.
Definition same_inst (i j : inst) : Prop := i_id i = i_id j /\ i_name i = i_name j /\ i_type i = i_type j /\ i_addr i = i_addr j /\ i_port i = i_port j.
Lemma same_stored i j : same_inst i j -> stored j -> stored i.
Proof. intros (_ & A & _ & B & C) [T1 T2 T3 T4 T5 T6]. constructor; rewrite ?A, ?B, ?C; assumption. Qed.
Lemma add_ref_same d a b l x : In x (add_ref d a b l) -> exists y, In y l /\ same_inst x y.
Proof. intros I. apply in_map_iff in I as (y & <- & Y). exists y. split; [easy|]. now repeat split. Qed.
Lemma parse_inst_words ws n b a p : parse_inst ws = Some (CInst n b a p) -> In n ws /\ In a ws.
Proof.
  unfold parse_inst. do 7 (destruct ws as [|? ws]; [discriminate|]). destruct ws; [|discriminate]. destruct (_ && _); [|discriminate]. destruct (is _ _); [|destruct (is _ _); [|discriminate]]; intros H; injection H as <- <- <- <-; cbn; auto 10.
Qed.
Lemma parse_cfg_words ws n b a p : parse_cfg ws = Some (CInst n b a p) -> In n ws /\ In a ws.
Proof.
  unfold parse_cfg. destruct (parse_inst ws) as [c|] eqn:E; [|destruct (parse_route ws) as [[[[? ?] ?] ?]|]; discriminate]. intros H. injection H as ->. now apply parse_inst_words in E.
Qed.
Lemma parse_words cfg ws n b a p : parse cfg ws = Some (CInst n b a p) -> In n ws /\ In a ws.
Proof.
  destruct cfg; cbn [parse]; [apply parse_cfg_words|]. unfold parse_enable. destruct ws as [|i r]; [discriminate|]. intros H.
  destruct (is i "ipa").
  - assert (X : parse_cfg r = Some (CInst n b a p) -> In n (i :: r) /\ In a (i :: r)) by (intros X; apply parse_cfg_words in X; cbn; tauto).
    destruct r as [|x [|y [|z r]]]; auto. destruct (is y "show"); [|discriminate]. destruct (is x "instance"); [discriminate|]. destruct (is x "route"); discriminate.
  - destruct (is i "no"); [|discriminate]. destruct r as [|j r]; [discriminate|]. destruct (is j "ipa"); [|discriminate].
    destruct r as [|x [|y [|z r]]]; [discriminate|discriminate| |].
    + destruct (is x "instance"); discriminate.
    + destruct (parse_route _) as [[[[? ?] ?] ?]|]; discriminate.
Qed.
Lemma step_insts s o s' y (Q : inst -> Prop) : Inv s -> step s o = Some (s', y) -> (forall i j, same_inst i j -> Q j -> Q i) ->
  (forall i, In i (insts s) -> Q i) -> match o with InstAdd n ty a p => Q (mkI (next s) (firstn 15 n) ty a (p mod 65536) 0) | _ => True end -> forall i, In i (insts s') -> Q i.
Proof.
  intros V H SQ QA QN i I. destruct o; cbn [step] in H.
  - unfold instance_add in H. destruct (existsb _ _); injection H as <- <-; [now apply QA|]. apply in_app_iff in I as [I|[<-|[]]]; auto.
  - unfold instance_del in H. destruct (find _ _); [|discriminate H]. destruct (0 <? _); injection H as <- <-; [now apply QA|]. apply filter_In in I as [I _]. now apply QA.
  - destruct (route_add s n1 v1 n2 v2 bound) as [[t r]|] eqn:E; [|discriminate H]. injection H as <- <-. cbn [fst] in I. destruct (add_ret _ _ _ _ _ _ _ _ V E) as [[-> _]| ->]; [now apply QA|].
    apply route_add_shape in E; [|exact V]. destruct E as (a & b & _ & _ & _ & _ & _ & _ & E & _). rewrite E in I. apply add_ref_same in I as (j & J & S). apply (SQ i j S). now apply QA.
  - destruct (route_del s n1 v1 n2 v2) as [[t r]|] eqn:E; [|discriminate H]. injection H as <- <-. cbn [fst] in I. destruct (del_ret _ _ _ _ _ _ _ V E) as [[-> _]| ->]; [now apply QA|].
    apply route_del_shape in E; [|exact V]. destruct E as (a & b & _ & _ & E & _). rewrite E in I. apply add_ref_same in I as (j & J & S). apply (SQ i j S). now apply QA.
  - unfold accept in H. destruct (find _ _); [|discriminate H]. destruct (find_route _ _); [|discriminate H]. destruct (find_shared _ _); [|discriminate H]. destruct (find_inst _ _); [|discriminate H].
    destruct ok; injection H as <- <-; now apply QA.
  - injection H as <- <-. now apply QA.
  - destruct (sock_src_cb _ _ _); [|discriminate H]. injection H as <- <-. now apply QA.
  - destruct (sock_dst_cb _ _ _); [|discriminate H]. injection H as <- <-. now apply QA.
Qed.
Lemma hist_stored k P s : hist k P s -> forall i, In i (insts s) -> stored i.
Proof.
  induction 1 as [|s e s' x H IH S _]; [easy|]. pose proof (reach_Inv s (hist_reach _ _ _ H)) as V. pose proof (vstep_op _ _ _ _ _ S) as O. destruct (ev_op k s e) as [o|] eqn:EO; [|now subst s'].
  destruct O as [y O]. apply (step_insts s o s' y stored V O same_stored IH). destruct e as [cfg t|n]; cbn [ev_op] in EO; [|injection EO as <-; destruct n; easy].
  destruct (parse cfg (VtyModel.words t)) as [c|] eqn:PC; [|discriminate EO]. destruct c; try discriminate EO; injection EO as <-; try easy.
  apply parse_words in PC as [P1 P2]. pose proof (VtyProofs.words_word t) as W. rewrite Forall_forall in W. apply W in P1, P2.
  constructor; cbn [i_name i_addr i_port].
  - apply cut_word; [easy|lia].
  - apply Forall_forall. intros z Z. pose proof (codes_bytes name) as B. rewrite Forall_forall in B. apply B. revert Z. generalize (codes name). generalize 15%nat. clear. induction n as [|n IH]; intros l; [easy|]. destruct l; [easy|]. cbn. intros [<-|Z]; auto.
  - rewrite firstn_length. lia.
  - now rewrite str_codes.
  - apply codes_bytes.
  - apply Z.mod_pos_bound. lia.
Qed.

(** ** Ports *)
Definition sp (s : st) : list (nat * nat) := map (fun sh => (s_src sh, s_dst sh)) (shareds s).
Lemma sp_set l sh : (forall x, In x l -> s_id x = s_id sh -> s_src x = s_src sh /\ s_dst x = s_dst sh) -> map (fun x => (s_src x, s_dst x)) (set_shared l sh) = map (fun x => (s_src x, s_dst x)) l.
Proof.
  intros H. unfold set_shared. rewrite map_map. apply map_ext_in. intros x X. destruct (Nat.eqb_spec (s_id x) (s_id sh)) as [E|]; [|easy]. destruct (H x X E) as [-> ->]. easy.
Qed.
Lemma same_id s sh : Inv s -> In sh (shareds s) -> forall x, In x (shareds s) -> s_id x = s_id sh -> s_src x = s_src sh /\ s_dst x = s_dst sh.
Proof. intros V I x X E. assert (x = sh) by (apply (id_inj s_id (shareds s)); [apply (I_ns s V)|easy|easy|easy]). now subst x. Qed.
Lemma step_sp s o s' y : Inv s -> step s o = Some (s', y) ->
  (sp s' = sp s /\ ports s' = ports s) \/
  (exists n1 v1 n2 v2 a b, o = RouteAdd n1 v1 n2 v2 true /\ find_src s n1 = Some a /\ sp s' = (sp s ++ [(i_id a, i_id b)])%list /\ ports s' = (ports s ++ [i_port a])%list).
Proof.
  intros V H. destruct o; cbn [step] in H.
  - unfold instance_add in H. destruct (existsb _ _); injection H as <- <-; auto.
  - unfold instance_del in H. destruct (find _ _); [|discriminate H]. destruct (0 <? _); injection H as <- <-; auto.
  - destruct (route_add s n1 v1 n2 v2 bound) as [[t r]|] eqn:E; [|discriminate H]. injection H as <- <-. cbn [fst]. destruct (add_ret _ _ _ _ _ _ _ _ V E) as [[-> _]| ->]; [auto|].
    apply route_add_shape in E; [|exact V]. destruct E as (a & b & Fa & Fb & _ & _ & _ & _ & _ & _ & _ & _ & [(sh & sh' & S1 & S2 & S3 & M & S4 & S5)|(-> & _ & sh' & M & S4 & S5)]); apply map_route_shape in M as (M1 & M2 & M3 & _).
    + left. unfold sp, ports. rewrite S4, S5. split; [|easy]. apply sp_set. rewrite M1, M2, M3. now apply same_id.
    + right. exists n1, v1, n2, v2, a, b. split; [reflexivity|]. split; [exact Fa|]. unfold sp, ports. rewrite S4, map_app. cbn [map]. rewrite M2, M3. easy.
  - destruct (route_del s n1 v1 n2 v2) as [[t r]|] eqn:E; [|discriminate H]. injection H as <- <-. cbn [fst]. destruct (del_ret _ _ _ _ _ _ _ V E) as [[-> _]| ->]; [auto|].
    apply route_del_shape in E; [|exact V]. destruct E as (a & b & sh & sh' & _ & L & S1 & M1 & M2 & M3 & S4). left. unfold sp, ports. rewrite L, S4. split; [|easy]. apply sp_set. rewrite M1, M2, M3. now apply same_id.
  - unfold accept in H. destruct (find _ _); [|discriminate H]. destruct (find_route _ _); [|discriminate H]. destruct (find_shared _ _); [|discriminate H]. destruct (find_inst _ _); [|discriminate H].
    destruct ok; injection H as <- <-; auto.
  - injection H as <- <-; auto.
  - destruct (sock_src_cb _ _ _); [|discriminate H]. injection H as <- <-. auto.
  - destruct (sock_dst_cb _ _ _); [|discriminate H]. injection H as <- <-. auto.
Qed.
(** an instance in use stays *)
Lemma step_keeps s o s' y : Inv s -> step s o = Some (s', y) -> forall i, In i (insts s) -> 0 < i_refcnt i \/ (match o with InstDel _ => False | _ => True end) -> exists j, In j (insts s') /\ same_inst j i.
Proof.
  intros V H i I U. assert (R : same_inst i i) by now repeat split. destruct o; cbn [step] in H.
  - unfold instance_add in H. destruct (existsb _ _); injection H as <- <-; exists i; [easy|]. split; [|easy]. apply in_app_iff. now left.
  - unfold instance_del in H. destruct (find _ _) as [j|] eqn:F; [|discriminate H]. apply find_some in F as [F _]. destruct (0 <? i_refcnt j) eqn:Z; injection H as <- <-; exists i; [easy|]. split; [|easy].
    cbn. apply filter_In. split; [easy|]. apply negb_true_iff, Nat.eqb_neq. intros E. assert (i = j) by (apply (id_inj i_id (insts s)); [apply (I_ni s V)|easy|easy|easy]). subst j. destruct U as [U|[]]. lia.
  - destruct (route_add s n1 v1 n2 v2 bound) as [[t r]|] eqn:E; [|discriminate H]. injection H as <- <-. cbn [fst]. destruct (add_ret _ _ _ _ _ _ _ _ V E) as [[-> _]| ->]; [eauto|].
    apply route_add_shape in E; [|exact V]. destruct E as (a & b & _ & _ & _ & _ & _ & _ & E & _). rewrite E. eexists. split; [unfold add_ref; apply in_map, I|]. now repeat split.
  - destruct (route_del s n1 v1 n2 v2) as [[t r]|] eqn:E; [|discriminate H]. injection H as <- <-. cbn [fst]. destruct (del_ret _ _ _ _ _ _ _ V E) as [[-> _]| ->]; [eauto|].
    apply route_del_shape in E; [|exact V]. destruct E as (a & b & _ & _ & E & _). rewrite E. eexists. split; [unfold add_ref; apply in_map, I|]. now repeat split.
  - unfold accept in H. destruct (find _ _); [|discriminate H]. destruct (find_route _ _); [|discriminate H]. destruct (find_shared _ _); [|discriminate H]. destruct (find_inst _ _); [|discriminate H].
    destruct ok; injection H as <- <-; eauto.
  - injection H as <- <-; eauto.
  - destruct (sock_src_cb _ _ _); [|discriminate H]. injection H as <- <-. eauto.
  - destruct (sock_dst_cb _ _ _); [|discriminate H]. injection H as <- <-. eauto.
Qed.
Lemma used_pos s sh i : Inv s -> In sh (shareds s) -> In i (insts s) -> i_id i = s_src sh \/ i_id i = s_dst sh -> 0 < i_refcnt i.
Proof.
  intros V S I E. rewrite (I_i s V i I). destruct (Z.lt_ge_cases 0 (uses (view s) (i_id i))) as [|U]; [easy|exfalso]. destruct (shared_used s sh V S) as (r & R1 & R2).
  assert (J : In (s_src sh, r_ss r, s_dst sh, r_ds r) (view s)) by (apply (in_view s V); exists r, sh; auto 10).
  apply (proj1 (uses_zero (view s) (i_id i)) U) in J. destruct J. destruct E; congruence.
Qed.
Definition PInv (s : st) : Prop := Forall2 (fun ab p => exists i, In i (insts s) /\ i_id i = fst ab /\ i_port i = p) (sp s) (ports s).
Lemma find_src_in s n a : find_src s n = Some a -> In a (insts s) /\ name_is n a = true.
Proof. unfold find_src. intros F. apply find_some in F as [F1 F2]. apply in_rev in F1. easy. Qed.
Lemma step_PInv s o s' y : Inv s -> PInv s -> step s o = Some (s', y) -> PInv s'.
Proof.
  intros V PI H. unfold PInv in *. pose proof (step_keeps s o s' y V H) as K.
  assert (OLD : Forall2 (fun ab p => exists i, In i (insts s') /\ i_id i = fst ab /\ i_port i = p) (sp s) (ports s)).
  { assert (SUB : forall ab, In ab (sp s) -> exists sh, In sh (shareds s) /\ fst ab = s_src sh) by (intros ab A; apply in_map_iff in A as (sh & <- & A); exists sh; easy).
    revert SUB. generalize (sp s), (ports s), PI. clear PI. induction 1 as [|ab p l l' (i & I1 & I2 & I3) F IH]; intros SUB; [constructor|]. constructor; [|apply IH; intros x X; apply SUB; now right].
    destruct (SUB ab (or_introl eq_refl)) as (sh & S1 & S2). destruct (K i I1) as (j & J1 & (J2 & _ & _ & _ & J5)); [left; apply (used_pos s sh i V S1 I1); left; congruence|]. exists j. split; [easy|]. split; congruence. }
  destruct (step_sp s o s' y V H) as [[-> ->]|(n1 & v1 & n2 & v2 & a & b & -> & F & -> & ->)]; [exact OLD|]. apply Forall2_app; [exact OLD|]. constructor; [|constructor].
  apply find_src_in in F as [F _]. destruct (K a F) as (j & J1 & (J2 & _ & _ & _ & J5)); [now right|]. exists j. easy.
Qed.
Lemma hist_PInv k P s : hist k P s -> PInv s.
Proof.
  induction 1 as [|s e s' x H IH S _]; [constructor|]. pose proof (reach_Inv s (hist_reach _ _ _ H)) as V. pose proof (vstep_op _ _ _ _ _ S) as O. destruct (ev_op k s e) as [o|]; [|now subst s'].
  destruct O as [y O]. eapply step_PInv; eassumption.
Qed.
Lemma hist_ports k P s : sane k -> hist k P s -> NoDup (ports s).
Proof.
  intros SK. induction 1 as [|s e s' x H IH S _]; [constructor|]. pose proof (reach_Inv s (hist_reach _ _ _ H)) as V. pose proof (vstep_op _ _ _ _ _ S) as O. destruct (ev_op k s e) as [o|] eqn:EO; [|now subst s'].
  destruct O as [y O]. destruct (step_sp s o s' y V O) as [[_ ->]|(n1 & v1 & n2 & v2 & a & b & -> & F & _ & ->)]; [exact IH|]. apply nodup_snoc; [exact IH|].
  destruct e as [cfg t|n]; cbn [ev_op] in EO; [|destruct n; discriminate EO]. destruct (parse cfg (VtyModel.words t)) as [c|]; [|discriminate EO]. destruct c; try discriminate EO. injection EO as E1 _ _ _ E2.
  apply SK in E2. unfold wanted in E2. rewrite E1, F in E2. exact E2.
Qed.

(** ** Tables *)
Definition tab (l : list (Z * Z)) (p : Z) : option Z := option_map snd (find (fun x => fst x =? p) (rev l)).
Definition swap (l : list (Z * Z)) : list (Z * Z) := map (fun x => (snd x, fst x)) l.
Definition shows (m : list bool) (t : list Z) (p : Z) (o : option Z) : Prop :=
  get m (Z.to_nat p) = Some (match o with Some _ => true | None => false end) /\ get t (Z.to_nat p) = Some (match o with Some q => q | None => 0 end).
Definition canon (l : list (Z * Z)) (sh : shared) : Prop :=
  forall p, 0 <= p < 256 -> shows (s_smap sh) (s_stab sh) p (tab l p) /\ shows (s_dmap sh) (s_dtab sh) p (tab (swap l) p).
Definition Canon (s : st) : Prop := forall sh, In sh (shareds s) -> canon (pairs (view s) (s_src sh) (s_dst sh)) sh.
Lemma tab_snoc l x p : tab (l ++ [x]) p = if fst x =? p then Some (snd x) else tab l p.
Proof. unfold tab. rewrite rev_app_distr. cbn [rev app find]. destruct (fst x =? p); reflexivity. Qed.
Lemma swap_app l m : swap (l ++ m) = (swap l ++ swap m)%list. Proof. apply map_app. Qed.
Lemma shows_put m t a b m' t' o p : 0 <= a < 256 -> 0 <= p < 256 -> put m (Z.to_nat a) true = Some m' -> put t (Z.to_nat a) b = Some t' -> shows m t p o -> shows m' t' p (if a =? p then Some b else o).
Proof.
  intros A P PM PT [S1 S2]. unfold shows. rewrite (put_get _ _ _ _ (Z.to_nat p) PM), (put_get _ _ _ _ (Z.to_nat p) PT).
  destruct (Z.eqb_spec a p) as [->|N]; [rewrite Nat.eqb_refl; easy|]. replace (Nat.eqb (Z.to_nat p) (Z.to_nat a)) with false; [easy|]. symmetry. apply Nat.eqb_neq. lia.
Qed.
Lemma map_canon l sh a b sh' : 0 <= a < 256 -> 0 <= b < 256 -> canon l sh -> map_route sh a b = Some sh' -> canon (l ++ [(a, b)]) sh'.
Proof.
  intros A B C M p P. apply map_route_shape in M as (_ & _ & _ & M1 & M2 & M3 & M4). destruct (C p P) as [C1 C2]. rewrite swap_app. change (swap [(a, b)]) with [(b, a)]. rewrite !tab_snoc. cbn [fst snd].
  split; [exact (shows_put _ _ a b _ _ _ p A P M3 M1 C1)|exact (shows_put _ _ b a _ _ _ p B P M4 M2 C2)].
Qed.
Lemma get_repeat {A} (x : A) n i : (i < n)%nat -> get (repeat x n) i = Some x.
Proof. unfold get. revert i. induction n as [|n IH]; intros [|i] H; try lia; [reflexivity|]. cbn. apply IH. lia. Qed.
Lemma empty_canon id a b : canon [] (empty_shared id a b).
Proof. intros p P. unfold empty_shared. cbn [s_smap s_stab s_dmap s_dtab]. unfold shows. cbn [tab swap map rev find option_map]. rewrite !get_repeat by lia. easy. Qed.
(** the oldest route of a pair is not repeated *)
Definition First (s : st) : Prop := forall a b x l, pairs (view s) a b = x :: l -> ~ In x l.
Lemma in_set_shared' l sh x : In x (set_shared l sh) -> x = sh \/ In x l.
Proof. intros I. apply in_set_shared in I. tauto. Qed.
Lemma pairs_other a p b q v c d : ~ (a = c /\ b = d) -> pairs (v ++ [(a, p, b, q)]) c d = pairs v c d.
Proof.
  intros N. rewrite pairs_app. cbn. destruct (Nat.eqb_spec a c), (Nat.eqb_spec b d); cbn; try (now rewrite app_nil_r). exfalso. auto.
Qed.
Lemma pairs_same a p b q v : pairs (v ++ [(a, p, b, q)]) a b = (pairs v a b ++ [(p, q)])%list.
Proof. rewrite pairs_app. f_equal. apply (pairs_cons a p b q []). Qed.
Lemma add_canon s n1 v1 n2 v2 bound s' : Inv s -> Inv s' -> route_add s n1 v1 n2 v2 bound = Some (s', Ok) -> Canon s -> First s -> Canon s' /\ First s'.
Proof.
  intros V V' E C F. apply route_add_shape in E; [|exact V]. destruct E as (a & b & Fa & Fb & _ & _ & B1 & B2 & _ & _ & VW & HD & D).
  split.
  - intros sh S. rewrite VW. destruct D as [(x & x' & X1 & X2 & X3 & M & X4 & _)|(_ & NP & x' & M & X4 & _)]; pose proof (map_route_shape _ _ _ _ M) as (M1 & M2 & M3 & _).
    + rewrite X4 in S. apply in_set_shared in S as [[-> _]|[S NE]].
      * rewrite M2, M3, X2, X3, pairs_same. apply (map_canon _ x _ _ _ B1 B2); [|exact M]. rewrite <- X2, <- X3. now apply C.
      * rewrite pairs_other; [now apply C|]. intros [E1 E2]. apply NE. rewrite M1. f_equal. apply (I_p s V); [easy|easy|congruence|congruence].
    + rewrite X4 in S. apply in_app_iff in S as [S|[<-|[]]].
      * rewrite pairs_other; [now apply C|]. intros [E1 E2]. apply (NP sh S). auto.
      * cbn in M2, M3. rewrite M2, M3, pairs_same. replace (pairs (view s) (i_id a) (i_id b)) with (@nil (Z * Z)); [exact (map_canon [] _ _ _ _ B1 B2 (empty_canon _ _ _) M)|].
        symmetry. destruct (pairs (view s) (i_id a) (i_id b)) as [|[p q] l] eqn:Q; [easy|exfalso]. assert (J : In (p, q) ((p, q) :: l)) by now left. rewrite <- Q in J. apply in_pairs in J.
        apply (in_view s V) in J. destruct J as (r & z & _ & J1 & _ & J2 & J3 & _). apply (NP z J1). auto.
  - intros c d x l. rewrite VW. destruct (Nat.eq_dec (i_id a) c) as [<-|N1]; [destruct (Nat.eq_dec (i_id b) d) as [<-|N2]|]; [|rewrite pairs_other by tauto; apply F|rewrite pairs_other by tauto; apply F].
    rewrite pairs_same. destruct (pairs (view s) (i_id a) (i_id b)) as [|y m] eqn:Q; cbn [app]; intros H; injection H as <- <-; [easy|]. intros I. apply in_app_iff in I as [I|[I|[]]]; [now apply (F _ _ _ _ Q) in I|]. apply HD. cbn. now rewrite I.
Qed.

Lemma step_canon s o s' y : Inv s -> step s o = Some (s', y) -> (match o with RouteDel _ _ _ _ => False | _ => True end) -> Canon s -> First s -> Canon s' /\ First s'.
Proof.
  intros V H N C F. assert (V' : Inv s') by (eapply step_Inv; eassumption). pose proof (step_same s o s' y H) as SM.
  destruct o; try easy; try (unfold Canon, First; rewrite (proj2 SM), (same_view s s' (proj1 SM) (proj2 SM)); split; [exact C|exact F]).
  cbn [step] in H. destruct (route_add s n1 v1 n2 v2 bound) as [[t r]|] eqn:E; [|discriminate H]. injection H as <- <-. cbn [fst] in *. destruct (add_ret _ _ _ _ _ _ _ _ V E) as [[-> _]| ->]; [easy|].
  exact (add_canon _ _ _ _ _ _ _ V V' E C F).
Qed.
Lemma parse_route_hd ws x : parse_route ws = Some x -> exists r, ws = "route" :: r.
Proof.
  unfold parse_route. do 9 (destruct ws as [|? ws]; [discriminate|]). destruct ws; [|discriminate]. destruct (is _ "route") eqn:E; [|discriminate]. apply String.eqb_eq in E as ->. eauto.
Qed.
Lemma noroute_words cfg t n1 v1 n2 v2 : parse cfg (VtyModel.words t) = Some (CNoRoute n1 v1 n2 v2) -> exists r, VtyModel.words t = "no" :: "ipa" :: "route" :: r.
Proof.
  generalize (VtyModel.words t). intros ws. destruct cfg; cbn [parse].
  - unfold parse_cfg. destruct (parse_inst ws) as [c|] eqn:E; [|destruct (parse_route ws) as [[[[? ?] ?] ?]|]; discriminate]. intros H. injection H as ->. unfold parse_inst in E.
    do 7 (destruct ws as [|? ws]; [discriminate|]). destruct ws; [|discriminate]. destruct (_ && _); [|discriminate]. destruct (is _ _); [discriminate|]. destruct (is _ _); discriminate.
  - unfold parse_enable. destruct ws as [|i r]; [discriminate|]. intros H. destruct (is i "ipa").
    + assert (X : parse_cfg r = Some (CNoRoute n1 v1 n2 v2) -> False).
      { unfold parse_cfg. destruct (parse_inst r) as [c|] eqn:E; [|destruct (parse_route r) as [[[[? ?] ?] ?]|]; discriminate]. intros X. injection X as ->. unfold parse_inst in E. clear H.
        do 7 (destruct r as [|? r]; [discriminate|]). destruct r; [|discriminate]. destruct (_ && _); [|discriminate]. destruct (is _ _); [discriminate|]. destruct (is _ _); discriminate. }
      destruct r as [|x [|y [|z r]]]; try (destruct (X H)). destruct (is y "show"); [|discriminate]. destruct (is x "instance"); [discriminate|]. destruct (is x "route"); discriminate.
    + destruct (is i "no") eqn:E1; [|discriminate]. apply String.eqb_eq in E1 as ->. destruct r as [|j r]; [discriminate|]. destruct (is j "ipa") eqn:E2; [|discriminate]. apply String.eqb_eq in E2 as ->.
      assert (X : (do x <- parse_route r; let '(a, b, c, d) := x in Some (CNoRoute a b c d)) = Some (CNoRoute n1 v1 n2 v2) -> exists r0, "no" :: "ipa" :: r = "no" :: "ipa" :: "route" :: r0).
      { destruct (parse_route r) as [x|] eqn:E; [|discriminate]. intros _. apply parse_route_hd in E as [r0 ->]. eauto. }
      destruct r as [|x [|y [|z r]]]; try (apply X, H). destruct (is x "instance"); discriminate.
Qed.
Lemma hist_canon k s : hist k no_deletion s -> Canon s /\ First s.
Proof.
  induction 1 as [|s e s' x H [C F] S P]; [split; [intros sh []|intros a b x l; cbn; discriminate]|]. pose proof (reach_Inv s (hist_reach _ _ _ H)) as V.
  pose proof (vstep_op _ _ _ _ _ S) as O. destruct (ev_op k s e) as [o|] eqn:EO; [|now subst s'].
  destruct O as [y O]. apply (step_canon s o s' y V O); auto. destruct e as [cfg t|n]; cbn [ev_op] in EO; [|injection EO as <-; now destruct n]. destruct (parse cfg (VtyModel.words t)) as [c|] eqn:PC; [|discriminate EO].
  destruct c; try discriminate EO; injection EO as <-; try easy. apply noroute_words in PC as [r PC]. cbn [no_deletion] in P. rewrite PC in P. apply P. easy.
Qed.
Lemma nodup_tab l p q : NoDup (map fst l) -> In (p, q) l -> tab l p = Some q.
Proof.
  intros N I. unfold tab. apply in_rev in I. assert (N' : NoDup (map fst (rev l))) by (rewrite map_rev; now apply NoDup_rev). revert N' I. generalize (rev l). clear. induction l as [|[a b] l IH]; [easy|].
  cbn [map fst find]. intros N [E|I].
  - injection E as -> ->. now rewrite Z.eqb_refl.
  - apply NoDup_cons_iff in N as [N1 N2]. destruct (Z.eqb_spec a p) as [->|]; [|now apply IH]. exfalso. apply N1. exact (in_map fst _ _ I).
Qed.
Lemma tab_none l p : (forall q, ~ In (p, q) l) -> tab l p = None.
Proof. intros N. unfold tab. destruct (find _ _) as [[a b]|] eqn:E; [|easy]. apply find_some in E as [E1 E2]. apply in_rev in E1. cbn in E2. apply Z.eqb_eq in E2 as ->. destruct (N b E1). Qed.
Lemma in_swap l p q : In (p, q) (swap l) <-> In (q, p) l.
Proof. unfold swap. rewrite in_map_iff. split; [intros ([a b] & E & I); injection E as <- <-; easy|intros I; exists (q, p); easy]. Qed.
Lemma dreach_canon s : dreach s -> Canon s /\ First s.
Proof.
  intros D. pose proof (reach_Inv s (dreach_reach s D)) as V. destruct (dreach_Full s D) as [F DJ]. split.
  - intros sh S p P. destruct (I_t s V sh S) as [(_ & _ & T1) (_ & _ & T2)]. destruct (DJ (s_src sh) (s_dst sh)) as [N1 N2].
    assert (N2' : NoDup (map fst (swap (pairs (view s) (s_src sh) (s_dst sh))))) by (unfold swap; rewrite map_map; exact N2).
    split.
    + destruct (T1 p P) as [[G1 (q & G2 & G3)]|[G1 G2]].
      * rewrite (nodup_tab _ p q N1) by now apply in_pairs. split; assumption.
      * rewrite tab_none; [split; assumption|]. intros q I. apply in_pairs in I. apply (F sh p q S) in I as [I _]. congruence.
    + destruct (T2 p P) as [[G1 (q & G2 & G3)]|[G1 G2]].
      * rewrite (nodup_tab _ p q N2') by now apply in_swap, in_pairs. split; assumption.
      * rewrite tab_none; [split; assumption|]. intros q I. apply in_swap, in_pairs in I. apply (F sh q p S) in I as [_ I]. congruence.
  - intros a b x l E I. destruct (DJ a b) as [N _]. rewrite E in N. cbn in N. apply NoDup_cons_iff in N as [N _]. apply N. now apply in_map.
Qed.
