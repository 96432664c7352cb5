(** C49: what is written to PCAP files, and to which descriptors. *)
From Coq Require Import List Arith Lia Bool ZArith.
From Verif Require Import Base PcapModel.
Import ListNotations.
Open Scope Z_scope.

(** ** Specification: the libpcap file format, read on a little-endian basis
    (https://wiki.wireshark.org/Development/LibpcapFileFormat) *)
Fixpoint of_le (l : list Z) : Z := match l with [] => 0 | x :: r => x + 256 * of_le r end.
Fixpoint of_be (acc : Z) (l : list Z) : Z := match l with [] => acc | x :: r => of_be (acc * 256 + x) r end.
Record packet := mkPkt { p_sec : Z; p_usec : Z; p_orig : Z; p_data : list Z }.
(** 24 octets: magic, version 2.4, zone, accuracy, snaplen, link type *)
Inductive file_header : list Z -> Z -> Z -> Prop :=
| fh mg ma mi tz sf sn nw :
    length mg = 4%nat -> length ma = 2%nat -> length mi = 2%nat -> length tz = 4%nat ->
    length sf = 4%nat -> length sn = 4%nat -> length nw = 4%nat ->
    of_le mg = 0xa1b2c3d4 -> of_le ma = 2 -> of_le mi = 4 -> of_le tz = 0 -> of_le sf = 0 ->
    file_header (mg ++ ma ++ mi ++ tz ++ sf ++ sn ++ nw) (of_le sn) (of_le nw).
(** records: 16 octets seconds, microseconds, included and original length, then the
    included octets, at most snaplen of them *)
Inductive records (snaplen : Z) : list Z -> list packet -> Prop :=
| rec_nil : records snaplen [] []
| rec_cons s u i o d rest ps :
    length s = 4%nat -> length u = 4%nat -> length i = 4%nat -> length o = 4%nat ->
    of_le i = Z.of_nat (length d) -> of_le i <= snaplen -> of_le i <= of_le o -> records snaplen rest ps ->
    records snaplen (s ++ u ++ i ++ o ++ d ++ rest) (mkPkt (of_le s) (of_le u) (of_le o) d :: ps).
Definition pcap_file (f : list Z) (snaplen linktype : Z) (ps : list packet) : Prop :=
  exists h body, f = h ++ body /\ file_header h snaplen linktype /\ records snaplen body ps.
(** LINKTYPE_LINUX_LAPD (177): 16 octets pseudo header in network byte order - packet
    type (0 to us, 4 sent by us), two unused words, address (8), protocol 0x0030 -
    and the LAPD frame *)
Definition lapd_packet (p : packet) (pkttype : Z) (frame : list Z) : Prop :=
  exists t h a q, p_data p = t ++ h ++ a ++ q ++ frame /\ length t = 2%nat /\ length h = 4%nat /\ length a = 8%nat /\ length q = 2%nat /\
    of_be 0 t = pkttype /\ of_be 0 q = 0x30 /\ p_orig p = Z.of_nat (length (p_data p)).
(** Q.921 frame header as the peer would have sent it: SAPI, C/R, TEI, UI *)
Definition ui_frame (sapi tei : Z) (cr : bool) (l3 : list Z) : list Z :=
  [sapi * 4 + (if cr then 2 else 0); tei * 2 + 1; 3] ++ l3.

(** the contents of the file behind a descriptor after a trace *)
Fixpoint octets (f : Z) (es : list eff) : list Z :=
  match es with
  | [] => []
  | PWrite g d :: r => if f =? g then d ++ octets f r else octets f r
  | PClose _ :: r => octets f r
  end.

(** ** Numbers and records *)
Lemma le_length n v : length (le n v) = n.
Proof. revert v. induction n; intros; cbn; [reflexivity|]. rewrite IHn. reflexivity. Qed.
Lemma of_le_le n v : of_le (le n v) = v mod 256 ^ Z.of_nat n.
Proof.
  revert v. induction n as [|n IH]; intros v; [cbn; symmetry; apply Z.mod_1_r|].
  cbn [le of_le]. rewrite IH, Nat2Z.inj_succ, Z.pow_succ_r by lia.
  rewrite Z.rem_mul_r by (try lia; apply Z.pow_pos_nonneg; lia). reflexivity.
Qed.
Lemma pcap_hdr_ok : file_header pcap_hdr 65535 177.
Proof.
  unfold pcap_hdr. change 65535 with (of_le (le 4 65535)) at 2. change 177 with (of_le (le 4 177)) at 2.
  apply fh; reflexivity.
Qed.
Lemma records_app sn a ps b qs : records sn a ps -> records sn b qs -> records sn (a ++ b) (ps ++ qs).
Proof.
  intros H B. induction H as [|s u i o d rest ps L1 L2 L3 L4 E1 E2 E3 H IH]; [exact B|].
  rewrite <- !app_assoc. apply rec_cons; assumption.
Qed.
Lemma one_record sec usec n d : n = Z.of_nat (length d) -> n <= 65535 ->
  records 65535 (pcap_rechdr sec usec n n ++ d) [mkPkt (sec mod 2^32) (usec mod 2^32) n d].
Proof.
  intros E L. unfold pcap_rechdr.
  assert (M : of_le (le 4 n) = n) by (rewrite of_le_le; change (256 ^ Z.of_nat 4) with 4294967296; apply Z.mod_small; lia).
  pose proof (rec_cons 65535 (le 4 sec) (le 4 usec) (le 4 n) (le 4 n) d [] []) as R.
  rewrite M, app_nil_r, !of_le_le in R. change (256 ^ Z.of_nat 4) with (2^32) in R. rewrite <- !app_assoc.
  apply R; rewrite ?le_length; try lia. apply rec_nil.
Qed.
(** the format is unambiguous: at most one reading *)
Lemma app_split {A} (a b c d : list A) : length a = length c -> a ++ b = c ++ d -> a = c /\ b = d.
Proof.
  revert c. induction a as [|x a IH]; intros [|y c] L E; try discriminate; [split; [reflexivity|exact E]|].
  injection E as -> E. destruct (IH c) as [-> ->]; [injection L; auto|exact E|]. split; reflexivity.
Qed.
Lemma records_unique sn f : forall ps qs, records sn f ps -> records sn f qs -> ps = qs.
Proof.
  intros ps qs H. revert qs. induction H as [|s u i o d rest ps L1 L2 L3 L4 E1 E2 E3 H IH]; intros qs Q.
  - remember [] as x eqn:X. destruct Q as [|s u i o d rest ps L1]; [reflexivity|]. destruct s; discriminate.
  - remember (s ++ u ++ i ++ o ++ d ++ rest) as x eqn:X. destruct Q as [|s' u' i' o' d' rest' ps' L1' L2' L3' L4' F1 F2 F3 Q].
    + destruct s; discriminate.
    + apply app_split in X as [-> X]; [|congruence]. apply app_split in X as [-> X]; [|congruence].
      apply app_split in X as [-> X]; [|congruence]. apply app_split in X as [-> X]; [|congruence].
      apply app_split in X as [-> ->]; [|lia]. rewrite (IH _ Q). reflexivity.
Qed.
Theorem C49_reading_unique : forall f sn lt ps sn' lt' ps', pcap_file f sn lt ps -> pcap_file f sn' lt' ps' -> sn = sn' /\ lt = lt' /\ ps = ps'.
Proof.
  intros f sn lt ps sn' lt' ps' (h & b & E & H & R) (h' & b' & E' & H' & R'). subst f.
  destruct H as [mg ma mi tz sf sn nw]. destruct H' as [mg' ma' mi' tz' sf' sn' nw'].
  rewrite <- !app_assoc in E'. repeat (apply app_split in E' as [-> E']; [|congruence]). subst b'.
  split; [reflexivity|]. split; [reflexivity|]. eapply records_unique; eassumption.
Qed.

(** ** One capture *)
(** a message on a software LAPD timeslot: one complete record holding it unchanged,
    with the direction *)
Theorem C49_lapd_record : forall out sec usec m, Z.of_nat (length m) <= 65519 ->
  exists p, records 65535 (lapd_record out sec usec m) [p] /\ p_sec p = sec mod 2^32 /\ p_usec p = usec mod 2^32 /\
    lapd_packet p (if out then 4 else 0) m.
Proof.
  intros out sec usec m L. unfold lapd_record.
  set (h := pcap_lapdhdr _ 0 0 _ _). assert (Lh : length (h ++ m) = (16 + length m)%nat) by (rewrite app_length; reflexivity).
  eexists. split; [apply one_record; rewrite ?Lh; lia|]. split; [reflexivity|]. split; [reflexivity|].
  exists (le 2 (htons (if out then LINUX_SLL_OUTGOING else LINUX_SLL_HOST))), (le 2 0 ++ le 2 0), [1; 0; 0; 0; 0; 0; 0; 0], (le 2 (htons 48)).
  cbn [p_data p_orig]. split; [unfold h, pcap_lapdhdr; rewrite <- !app_assoc; reflexivity|].
  repeat (split; [destruct out; reflexivity|]). rewrite Lh. lia.
Qed.
(** without software LAPD: one complete record (written in four pieces) with an
    LAPD frame built around the message; the packet type is in the wrong byte order
    (1024) and does not tell the direction, the C/R bit and the address do *)
Definition fake_record (out : bool) (sapi tei sec : Z) (m : list Z) : list Z :=
  pcap_rechdr sec 0 (Z.of_nat (length m) + 16 + 3) (Z.of_nat (length m) + 16 + 3) ++ fake_header out ++ lapd_header out sapi tei ++ m.
Theorem C49_fake_record : forall out sapi tei sec m, Z.of_nat (length m) <= 65516 -> 0 <= sapi < 64 -> 0 <= tei < 128 ->
  exists p, records 65535 (fake_record out sapi tei sec m) [p] /\ p_sec p = sec mod 2^32 /\
    lapd_packet p 1024 (ui_frame sapi tei out m).
Proof.
  intros out sapi tei sec m L S T. unfold fake_record.
  set (x := fake_header out ++ lapd_header out sapi tei ++ m). assert (Lh : length x = (19 + length m)%nat) by (unfold x; rewrite !app_length; destruct out; reflexivity).
  eexists. split; [apply one_record; rewrite ?Lh; lia|]. split; [reflexivity|].
  exists (le 2 4), (le 2 0 ++ le 2 0), (le 8 (if out then 0 else 1)), (le 2 (htons 48)).
  cbn [p_data p_orig]. split.
  - unfold x, fake_header, lapd_header, ui_frame. rewrite !Z.mod_small by lia. rewrite <- !app_assoc. destruct out; cbn [Z.mul]; rewrite ?Z.add_0_r; reflexivity.
  - repeat (split; [destruct out; reflexivity|]). rewrite Lh. lia.
Qed.
Theorem C49_fake_direction_refuted : exists sapi tei sec m p, records 65535 (fake_record true sapi tei sec m) [p] /\ ~ lapd_packet p 4 (ui_frame sapi tei true m).
Proof.
  destruct (C49_fake_record true 62 25 0 [1; 2]) as (p & R & _ & P); [cbn; lia|lia|lia|].
  exists 62, 25, 0, [1; 2], p. split; [exact R|]. intros (t & h & a & q & E & L1 & L2 & L3 & L4 & T & _).
  destruct P as (t' & h' & a' & q' & E' & L1' & L2' & L3' & L4' & T' & _). rewrite E in E'.
  apply app_split in E' as [-> _]; [|congruence]. rewrite T in T'. discriminate.
Qed.
(** a message that does not fit the announced snapshot length is recorded anyway *)
Theorem C49_snaplen_refuted : exists m, Z.of_nat (length m) <= 65535 /\ forall ps, ~ records 65535 (lapd_record true 0 0 m) ps.
Proof.
  exists (repeat 0 (Z.to_nat 65520)). rewrite repeat_length. split; [lia|]. intros ps H.
  unfold lapd_record in H. rewrite repeat_length in H. rewrite Z2Nat.id in H by lia.
  set (x := pcap_lapdhdr _ _ _ _ _ ++ repeat 0 (Z.to_nat 65520)) in H.
  assert (L : length x = Z.to_nat 65536) by (unfold x; rewrite app_length, repeat_length; change (length (pcap_lapdhdr _ _ _ _ _)) with 16%nat; lia).
  clearbody x. unfold pcap_rechdr in H. rewrite <- !app_assoc in H.
  remember (le 4 0 ++ le 4 0 ++ le 4 (65520 + 16) ++ le 4 (65520 + 16) ++ x) as y eqn:E.
  destruct H as [|s u i o d rest ps L1 L2 L3 L4 F1 F2]; [discriminate|].
  apply app_split in E as [-> E]; [|exact L1]. apply app_split in E as [-> E]; [|exact L2]. apply app_split in E as [-> E]; [|exact L3].
  vm_compute in F2. congruence.
Qed.

(** ** Histories *)
(** descriptors handed to the library *)
Definition handed1 (o : op) : list Z :=
  match o with SetGlobal fd | SetLine _ fd => if 0 <=? fd then [fd] else [] | _ => [] end.
Definition handed (os : list (op * bool * list wres)) : list Z := flat_map (fun x => handed1 (fst (fst x))) os.
(** histories without cloned lines and without the shutdown signal, in which every
    write() writes everything and messages fit the snapshot length *)
Definition plain (o : op) : Prop :=
  match o with
  | LineClone _ | Shutdown => False
  | Capture _ _ _ sapi tei _ _ m => Z.of_nat (length m) <= 65516 /\ 0 <= sapi < 64 /\ 0 <= tei < 128
  | _ => True
  end.
Definition regular (os : list (op * bool * list wres)) : Prop :=
  NoDup (handed os) /\ Forall (fun x => plain (fst (fst x)) /\ Forall (fun w => w = WFull) (snd x)) os.
(** no descriptor is written or closed after the library closed it *)
Definition no_use_after_close (es : list eff) : Prop :=
  forall a e b, es = a ++ e :: b -> match e with PWrite f _ | PClose f => ~ In (PClose f) a end.

Lemma octets_app f a b : octets f (a ++ b) = octets f a ++ octets f b.
Proof.
  induction a as [|[g d|g] a IH]; [reflexivity| |exact IH]. cbn. rewrite IH. destruct (f =? g); [apply app_assoc|reflexivity].
Qed.
Lemma put_nth {A} (l l' : list A) i v : put l i v = Some l' ->
  (i < length l)%nat /\ forall j, nth_error l' j = if (j =? i)%nat then Some v else nth_error l j.
Proof.
  unfold put. destruct (Nat.ltb_spec i (length l)) as [L|]; [|discriminate]. intros E. injection E as <-. split; [exact L|]. intros j.
  destruct (Nat.eqb_spec j i) as [->|N].
  - rewrite nth_error_app2 by (rewrite firstn_length; lia). rewrite firstn_length. replace (i - Nat.min i (length l))%nat with 0%nat by lia. reflexivity.
  - destruct (Nat.lt_ge_cases j i) as [J|J].
    + rewrite nth_error_app1 by (rewrite firstn_length; lia). rewrite <- (firstn_skipn i l) at 2. rewrite nth_error_app1 by (rewrite firstn_length; lia). reflexivity.
    + rewrite nth_error_app2 by (rewrite firstn_length; lia). rewrite firstn_length. replace (j - Nat.min i (length l))%nat with (S (j - S i)) by lia. cbn [nth_error].
      rewrite <- (firstn_skipn (S i) l) at 2. rewrite nth_error_app2 by (rewrite firstn_length; lia). rewrite firstn_length. f_equal. lia.
Qed.

Definition live (pre : list eff) (used : list Z) (f : Z) : Prop :=
  In f used /\ (exists ps, pcap_file (octets f pre) 65535 177 ps) /\ ~ In (PClose f) pre.
Record Inv (pre : list eff) (used : list Z) (s : pst) : Prop := {
  i_fresh : forall f, 0 <= f -> ~ In f used -> octets f pre = [] /\ ~ In (PClose f) pre;
  i_files : forall f, octets f pre = [] \/ exists ps, pcap_file (octets f pre) 65535 177 ps;
  i_glob : g_fd s < 0 \/ live pre used (g_fd s);
  i_line : forall i l, nth_error (p_lines s) i = Some l -> pl_listed l = true /\ (pl_fd l < 0 \/ live pre used (pl_fd l));
  i_lapd : forall i l x, nth_error (p_lines s) i = Some l -> In (Some x) (pl_lapd l) -> x < 0 \/ x = pl_fd l \/ x = g_fd s;
  i_dist : forall i j l l', i <> j -> nth_error (p_lines s) i = Some l -> nth_error (p_lines s) j = Some l' -> 0 <= pl_fd l -> pl_fd l <> pl_fd l';
  i_distg : forall i l, nth_error (p_lines s) i = Some l -> 0 <= pl_fd l -> pl_fd l <> g_fd s;
  i_safe : no_use_after_close pre }.

Lemma nuac_snoc pre e : no_use_after_close pre -> match e with PWrite f _ | PClose f => ~ In (PClose f) pre end -> no_use_after_close (pre ++ [e]).
Proof.
  intros H N a x b E. destruct b as [|y b].
  - apply app_inj_tail in E as [-> ->]. exact N.
  - destruct (exists_last (l := y :: b)) as (b' & z & B); [discriminate|]. rewrite B in E.
    rewrite app_comm_cons, app_assoc in E. apply app_inj_tail in E as [-> _]. apply (H a x b'). reflexivity.
Qed.
Lemma live_mono pre pre' used used' f : live pre used f -> octets f pre' = octets f pre -> ~ In (PClose f) pre' -> incl used used' -> live pre' used' f.
Proof. intros (A & B & C) E N I. split; [apply I, A|]. split; [rewrite E; exact B|exact N]. Qed.

(** the header and the close of a descriptor change *)
Definition change (fd old : Z) : list eff := (if 0 <=? fd then [PWrite fd pcap_hdr] else []) ++ (if 0 <=? old then [PClose old] else []).
Lemma octets_change f fd old : octets f (change fd old) = if (f =? fd) && (0 <=? fd) then pcap_hdr else [].
Proof. unfold change. destruct (0 <=? fd), (0 <=? old); cbn; destruct (f =? fd); reflexivity. Qed.
Lemma in_change f fd old : In (PClose f) (change fd old) <-> f = old /\ 0 <= old.
Proof.
  unfold change. rewrite in_app_iff. destruct (Z.leb_spec 0 fd), (Z.leb_spec 0 old); cbn; intuition (try congruence; try lia).
Qed.
Lemma hdr_file : pcap_file pcap_hdr 65535 177 [].
Proof. exists pcap_hdr, []. split; [reflexivity|]. split; [apply pcap_hdr_ok|apply rec_nil]. Qed.
(** what a change does to the part of the invariant that speaks of the trace *)
Lemma change_trace pre used s fd old : Inv pre used s -> (0 <= fd -> ~ In fd used) -> (old < 0 \/ live pre used old) ->
  let pre' := pre ++ change fd old in let used' := (if 0 <=? fd then [fd] else []) ++ used in
  (forall f, 0 <= f -> ~ In f used' -> octets f pre' = [] /\ ~ In (PClose f) pre') /\
  (forall f, octets f pre' = [] \/ exists ps, pcap_file (octets f pre') 65535 177 ps) /\
  (forall f, live pre used f -> 0 <= f -> f <> old -> live pre' used' f) /\
  (0 <= fd -> live pre' used' fd) /\ no_use_after_close pre'.
Proof.
  intros I F O pre' used'. assert (F' : 0 <= fd -> octets fd pre = [] /\ ~ In (PClose fd) pre) by (intros P; apply (i_fresh _ _ _ I); auto).
  assert (OF : 0 <= fd -> 0 <= old -> old <> fd) by (intros P Q ->; destruct O as [O|O]; [lia|]; apply F; [exact P|apply O]).
  split; [|split; [|split; [|split]]].
  - intros f P N. unfold pre', used' in *. rewrite in_app_iff in N. assert (N1 : ~ In f used) by tauto.
    destruct (i_fresh _ _ _ I f P N1) as [A B]. rewrite octets_app, octets_change, A, in_app_iff, in_change.
    destruct (Z.eqb_spec f fd) as [->|]; cbn.
    + exfalso. apply N. left. destruct (Z.leb_spec 0 fd); [left; reflexivity|lia].
    + split; [reflexivity|]. intros [H|[-> H]]; [contradiction|]. destruct O as [O|O]; [lia|]. apply N1, O.
  - intros f. unfold pre'. rewrite octets_app, octets_change. destruct (Z.eqb_spec f fd) as [->|]; cbn [andb]; [|rewrite app_nil_r; apply (i_files _ _ _ I)].
    destruct (Z.leb_spec 0 fd) as [P|P]; [|rewrite app_nil_r; apply (i_files _ _ _ I)]. right. rewrite (proj1 (F' P)). exists []. apply hdr_file.
  - intros f L P N. eapply live_mono; [exact L| | |apply incl_appr, incl_refl].
    + unfold pre'. rewrite octets_app, octets_change. destruct (Z.eqb_spec f fd) as [->|]; cbn [andb]; [|apply app_nil_r].
      exfalso. apply (F P). apply L.
    + unfold pre'. rewrite in_app_iff, in_change. intros [H|[H _]]; [apply L; exact H|congruence].
  - intros P. unfold live, pre', used'. split; [apply in_or_app; left; destruct (Z.leb_spec 0 fd); [left; reflexivity|lia]|]. split.
    + rewrite octets_app, octets_change, Z.eqb_refl, (proj1 (F' P)). destruct (Z.leb_spec 0 fd); [|lia]. exists []. apply hdr_file.
    + rewrite in_app_iff, in_change. intros [H|[H Q]]; [apply F' in H; [contradiction|exact P]|]. apply (OF P Q). auto.
  - unfold pre', change. assert (S1 : no_use_after_close (pre ++ if 0 <=? fd then [PWrite fd pcap_hdr] else [])).
    { destruct (Z.leb_spec 0 fd) as [P|P]; [apply nuac_snoc; [apply (i_safe _ _ _ I)|apply F'; exact P]|rewrite app_nil_r; apply (i_safe _ _ _ I)]. }
    rewrite app_assoc. destruct (Z.leb_spec 0 old) as [P|P]; [|rewrite app_nil_r; exact S1]. apply nuac_snoc; [exact S1|].
    rewrite in_app_iff. intros [H|H].
    + destruct O as [O|O]; [lia|]. apply O. exact H.
    + destruct (0 <=? fd); [destruct H as [H|[]]; discriminate|contradiction].
Qed.
Lemma in_set_lapd x fd l : In (Some x) (set_lapd fd l) -> x = fd.
Proof. unfold set_lapd. intros H. apply in_map_iff in H as ([y|] & E & _); [injection E; auto|discriminate]. Qed.
Lemma incl_used fd used : incl used ((if 0 <=? fd then [fd] else []) ++ used).
Proof. apply incl_appr, incl_refl. Qed.

Lemma setline_inv pre used s i fd e s' bad : Inv pre used s -> (0 <= fd -> ~ In fd used) ->
  e1_set_pcap_fd2 bad s i fd = Some (e, s') -> Inv (pre ++ e) ((if 0 <=? fd then [fd] else []) ++ used) s'.
Proof.
  intros I F H. unfold e1_set_pcap_fd2, get in H. destruct (nth_error (p_lines s) i) as [l|] eqn:N; [|discriminate].
  destruct ((0 <=? fd) && bad) eqn:B.
  - injection H as <- <-. rewrite app_nil_r. destruct I as [I1 I2 I3 I4 I5 I6 I7 I8]. constructor; auto.
    + intros f P Q. apply I1; [exact P|]. intros X. apply Q, in_or_app. right. exact X.
    + destruct I3 as [I3|I3]; [left; exact I3|right]. eapply live_mono; [exact I3|reflexivity|apply I3|apply incl_used].
    + intros j l' E. destruct (I4 j l' E) as [A [X|X]]; (split; [exact A|]); [left; exact X|right]. eapply live_mono; [exact X|reflexivity|apply X|apply incl_used].
  - destruct (put (p_lines s) i _) as [ls|] eqn:P; [|discriminate]. injection H as <- <-. fold (change fd (pl_fd l)).
    destruct (put_nth _ _ _ _ P) as [_ PN]. destruct (i_line _ _ _ I i l N) as [_ LL].
    destruct (change_trace pre used s fd (pl_fd l) I F LL) as (T1 & T2 & T3 & T4 & T5).
    assert (FD : forall f, live pre used f -> 0 <= f -> f <> fd) by (intros f L Q ->; apply (F Q), L).
    constructor; cbn [g_fd p_lines]; auto.
    + destruct (i_glob _ _ _ I) as [G|G]; [left; exact G|]. destruct (Z.ltb_spec (g_fd s) 0) as [Z|Z]; [left; exact Z|right]. apply T3; [exact G|exact Z|].
      intros E. destruct (Z.ltb_spec (pl_fd l) 0) as [Y|Y]; [lia|]. apply (i_distg _ _ _ I i l N Y). auto.
    + intros j l' E. rewrite PN in E. destruct (Nat.eqb_spec j i) as [->|J].
      * injection E as <-. cbn. split; [apply (i_line _ _ _ I i l N)|]. destruct (Z.ltb_spec fd 0); [left; assumption|right; apply T4; assumption].
      * destruct (i_line _ _ _ I j l' E) as [A [X|X]]; (split; [exact A|]); [left; exact X|].
        destruct (Z.ltb_spec (pl_fd l') 0) as [Z|Z]; [left; exact Z|right]. apply T3; [exact X|exact Z|]. apply (i_dist _ _ _ I j i l' l J E N Z).
    + intros j l' x E X. rewrite PN in E. destruct (Nat.eqb_spec j i) as [->|J].
      * injection E as <-. cbn in *. apply in_set_lapd in X. right. left. exact X.
      * apply (i_lapd _ _ _ I j l' x E X).
    + intros j k l1 l2 JK E1 E2 Q. rewrite PN in E1, E2. destruct (Nat.eqb_spec j i) as [->|J], (Nat.eqb_spec k i) as [->|K]; try lia.
      * injection E1 as <-. cbn in *. destruct (i_line _ _ _ I k l2 E2) as [_ [X|X]]; [lia|]. intros Y. rewrite Y in Q. apply (FD (pl_fd l2)); auto.
      * injection E2 as <-. cbn. destruct (i_line _ _ _ I j l1 E1) as [_ [X|X]]; [lia|]. apply FD; assumption.
      * apply (i_dist _ _ _ I j k l1 l2 JK E1 E2 Q).
    + intros j l' E Q. rewrite PN in E. destruct (Nat.eqb_spec j i) as [->|J].
      * injection E as <-. cbn in *. destruct (i_glob _ _ _ I) as [G|G]; [lia|]. intros Y. rewrite Y in Q. apply (FD (g_fd s)); auto.
      * apply (i_distg _ _ _ I j l' E Q).
Qed.
Lemma setglobal_inv pre used s fd e s' bad : Inv pre used s -> (0 <= fd -> ~ In fd used) ->
  e1_set_pcap_fd bad s fd = (e, s') -> Inv (pre ++ e) ((if 0 <=? fd then [fd] else []) ++ used) s'.
Proof.
  intros I F H. unfold e1_set_pcap_fd in H. destruct ((0 <=? fd) && bad) eqn:B.
  - injection H as <- <-. rewrite app_nil_r. destruct I as [I1 I2 I3 I4 I5 I6 I7 I8]. constructor; auto.
    + intros f P Q. apply I1; [exact P|]. intros X. apply Q, in_or_app. right. exact X.
    + destruct I3 as [I3|I3]; [left; exact I3|right]. eapply live_mono; [exact I3|reflexivity|apply I3|apply incl_used].
    + intros j l' E. destruct (I4 j l' E) as [A [X|X]]; (split; [exact A|]); [left; exact X|right]. eapply live_mono; [exact X|reflexivity|apply X|apply incl_used].
  - injection H as <- <-. fold (change fd (g_fd s)).
    destruct (change_trace pre used s fd (g_fd s) I F (i_glob _ _ _ I)) as (T1 & T2 & T3 & T4 & T5).
    assert (FD : forall f, live pre used f -> 0 <= f -> f <> fd) by (intros f L Q ->; apply (F Q), L).
    assert (M : forall j l', nth_error (map (fun l => if pl_listed l then mkPL (pl_fd l) (set_lapd fd (pl_lapd l)) (pl_listed l) else l) (p_lines s)) j = Some l' ->
       exists l, nth_error (p_lines s) j = Some l /\ l' = mkPL (pl_fd l) (set_lapd fd (pl_lapd l)) true).
    { intros j l' E. rewrite nth_error_map in E. destruct (nth_error (p_lines s) j) as [l|] eqn:N; [|discriminate]. cbn in E.
      exists l. split; [reflexivity|]. destruct (i_line _ _ _ I j l N) as [A _]. rewrite A in E. congruence. }
    constructor; cbn [g_fd p_lines]; auto.
    + destruct (Z.ltb_spec fd 0); [left; assumption|right; apply T4; assumption].
    + intros j l' E. apply M in E as (l & N & ->). cbn. split; [reflexivity|]. destruct (i_line _ _ _ I j l N) as [_ [X|X]]; [left; exact X|].
      destruct (Z.ltb_spec (pl_fd l) 0) as [Z|Z]; [left; exact Z|right]. apply T3; [exact X|exact Z|]. apply (i_distg _ _ _ I j l N Z).
    + intros j l' x E X. apply M in E as (l & N & ->). cbn in *. apply in_set_lapd in X. right. right. exact X.
    + intros j k l1 l2 JK E1 E2 Q. apply M in E1 as (m1 & N1 & ->). apply M in E2 as (m2 & N2 & ->). cbn in *. apply (i_dist _ _ _ I j k m1 m2 JK N1 N2 Q).
    + intros j l' E Q. apply M in E as (l & N & ->). cbn in *. destruct (i_line _ _ _ I j l N) as [_ [X|X]]; [lia|]. apply FD; assumption.
Qed.
(** the record of a capture *)
Definition record_of (k out : bool) (sapi tei sec usec : Z) (m : list Z) : list Z :=
  if k then lapd_record out sec usec m else fake_record out sapi tei sec m.
Lemma full_write ws f d : Forall (fun w => w = WFull) ws -> exists ws', do_write ws f d = (PWrite f d, true, ws') /\ Forall (fun w => w = WFull) ws'.
Proof. intros H. destruct H as [|w ws -> H]; [exists []; split; [reflexivity|constructor]|exists ws; split; [reflexivity|exact H]]. Qed.
Lemma capture_full ws s i n out sapi tei sec usec m e : Forall (fun w => w = WFull) ws -> capture ws s i n out sapi tei sec usec m = Some e ->
  exists k f, target s i n = Some (k, f) /\
    ((f < 0 /\ e = []) \/ (0 <= f /\ (forall g, octets g e = if g =? f then record_of k out sapi tei sec usec m else []) /\ Forall (fun x => exists d, x = PWrite f d) e)).
Proof.
  intros W H. unfold capture in H. destruct (target s i n) as [[k f]|]; [|discriminate]. injection H as <-. exists k, f. split; [reflexivity|].
  cbn [fst snd]. destruct k.
  - unfold osmo_pcap_lapd_write. destruct (Z.ltb_spec f 0); [left; split; [assumption|reflexivity]|right]. split; [assumption|].
    destruct (full_write ws f (lapd_record out sec usec m) W) as (ws' & -> & _). cbn [fst]. split.
    + intros g. cbn [octets]. destruct (g =? f); [apply app_nil_r|reflexivity].
    + constructor; [eexists; reflexivity|constructor].
  - unfold write_pcap_packet. destruct (Z.ltb_spec f 0); [left; split; [assumption|reflexivity]|right]. split; [assumption|].
    set (h := pcap_rechdr sec 0 _ _). destruct (full_write ws f h W) as (w1 & -> & W1).
    destruct (full_write w1 f (fake_header out) W1) as (w2 & -> & W2). destruct (full_write w2 f (lapd_header out sapi tei) W2) as (w3 & -> & W3).
    destruct (full_write w3 f m W3) as (w4 & -> & W4). cbn [fst]. split.
    + intros g. cbn [octets]. destruct (g =? f); [|reflexivity]. rewrite app_nil_r. reflexivity.
    + repeat (constructor; [eexists; reflexivity|]). constructor.
Qed.
Lemma record_reads k out sapi tei sec usec m : Z.of_nat (length m) <= 65516 -> 0 <= sapi < 64 -> 0 <= tei < 128 ->
  exists p, records 65535 (record_of k out sapi tei sec usec m) [p] /\
    (if k then lapd_packet p (if out then 4 else 0) m else lapd_packet p 1024 (ui_frame sapi tei out m)).
Proof.
  intros L S T. destruct k; cbn [record_of].
  - destruct (C49_lapd_record out sec usec m) as (p & R & _ & _ & P); [lia|]. exists p. split; assumption.
  - destruct (C49_fake_record out sapi tei sec m) as (p & R & _ & P); [assumption..|]. exists p. split; assumption.
Qed.
Lemma file_snoc f ps x p : pcap_file f 65535 177 ps -> records 65535 x [p] -> pcap_file (f ++ x) 65535 177 (ps ++ [p]).
Proof.
  intros (h & b & -> & H & R) X. exists h, (b ++ x). split; [symmetry; apply app_assoc|]. split; [exact H|].
  apply records_app; assumption.
Qed.
Lemma target_live pre used s i n k f : Inv pre used s -> target s i n = Some (k, f) -> 0 <= f -> live pre used f.
Proof.
  intros I T P. unfold target, get in T. destruct (nth_error (p_lines s) i) as [l|] eqn:N; [|discriminate].
  destruct (nth_error (pl_lapd l) n) as [t|] eqn:M; [|discriminate]. injection T as T.
  destruct (i_line _ _ _ I i l N) as [_ L]. destruct t as [x|]; injection T as <- <-.
  - apply nth_error_In in M. destruct (i_lapd _ _ _ I i l x N M) as [X|[X|X]]; [lia| |].
    + subst x. destruct L; [lia|assumption].
    + subst x. destruct (i_glob _ _ _ I); [lia|assumption].
  - destruct L; [lia|assumption].
Qed.
Lemma nuac_writes pre f e : no_use_after_close pre -> ~ In (PClose f) pre -> Forall (fun x => exists d, x = PWrite f d) e ->
  no_use_after_close (pre ++ e) /\ forall g, In (PClose g) (pre ++ e) <-> In (PClose g) pre.
Proof.
  intros S N H. revert pre S N. induction H as [|x e [d ->] H IH]; intros pre S N; [rewrite app_nil_r; split; [exact S|reflexivity]|].
  replace (pre ++ PWrite f d :: e) with ((pre ++ [PWrite f d]) ++ e) by (rewrite <- app_assoc; reflexivity).
  assert (E : forall g, In (PClose g) (pre ++ [PWrite f d]) <-> In (PClose g) pre) by (intros g; rewrite in_app_iff; cbn; intuition discriminate).
  destruct (IH (pre ++ [PWrite f d])) as [A B]; [apply nuac_snoc; assumption|rewrite E; exact N|].
  split; [exact A|]. intros g. rewrite B. apply E.
Qed.
Lemma capture_inv pre used s ws i n out sapi tei sec usec m e : Inv pre used s -> Forall (fun w => w = WFull) ws ->
  Z.of_nat (length m) <= 65516 -> 0 <= sapi < 64 -> 0 <= tei < 128 ->
  capture ws s i n out sapi tei sec usec m = Some e -> Inv (pre ++ e) used s.
Proof.
  intros I W L S T H. destruct (capture_full _ _ _ _ _ _ _ _ _ _ _ W H) as (k & f & Tg & [[P ->]|(P & O & WR)]); [rewrite app_nil_r; exact I|].
  pose proof (target_live _ _ _ _ _ _ _ I Tg P) as V. destruct (record_reads k out sapi tei sec usec m L S T) as (p & R & _).
  destruct (nuac_writes pre f e (i_safe _ _ _ I)) as [A B]; [apply V|exact WR|].
  assert (OF : exists ps, pcap_file (octets f (pre ++ e)) 65535 177 ps).
  { destruct V as (_ & (ps & F) & _). rewrite octets_app, O, Z.eqb_refl. eexists. eapply file_snoc; eassumption. }
  assert (OG : forall g, g <> f -> octets g (pre ++ e) = octets g pre).
  { intros g N. rewrite octets_app, O. destruct (Z.eqb_spec g f); [contradiction|apply app_nil_r]. }
  assert (LV : forall g, live pre used g -> live (pre ++ e) used g).
  { intros g (G1 & G2 & G3). split; [exact G1|]. split; [|rewrite B; exact G3]. destruct (Z.eq_dec g f) as [->|N]; [exact OF|rewrite OG by exact N; exact G2]. }
  constructor.
  - intros g Q N. rewrite OG by (intros ->; apply N, V). rewrite B. apply (i_fresh _ _ _ I); assumption.
  - intros g. destruct (Z.eq_dec g f) as [->|N]; [right; exact OF|rewrite OG by exact N; apply (i_files _ _ _ I)].
  - destruct (i_glob _ _ _ I); [left|right; apply LV]; assumption.
  - intros j l N. destruct (i_line _ _ _ I j l N) as [X [Y|Y]]; (split; [exact X|]); [left; exact Y|right; apply LV; exact Y].
  - apply (i_lapd _ _ _ I).
  - apply (i_dist _ _ _ I).
  - apply (i_distg _ _ _ I).
  - exact A.
Qed.
Lemma same_fd_inv pre used s i l la s' : Inv pre used s -> nth_error (p_lines s) i = Some l ->
  (forall x, In (Some x) la -> x < 0 \/ x = pl_fd l \/ x = g_fd s) ->
  (do ls <- put (p_lines s) i (mkPL (pl_fd l) la (pl_listed l)); Some (mkP (g_fd s) ls)) = Some s' -> Inv pre used s'.
Proof.
  intros I N LA H. destruct (put _ _ _) as [ls|] eqn:P; [|discriminate]. injection H as <-. destruct (put_nth _ _ _ _ P) as [_ PN].
  assert (M : forall j l', nth_error ls j = Some l' -> exists l0, nth_error (p_lines s) j = Some l0 /\ pl_fd l' = pl_fd l0 /\ pl_listed l' = pl_listed l0).
  { intros j l' E. rewrite PN in E. destruct (Nat.eqb_spec j i) as [->|J]; [injection E as <-; exists l; auto|exists l'; auto]. }
  constructor; cbn [g_fd p_lines]; try apply I.
  - intros j l' E. apply M in E as (l0 & E & -> & ->). apply (i_line _ _ _ I j l0 E).
  - intros j l' x E X. rewrite PN in E. destruct (Nat.eqb_spec j i) as [->|J]; [injection E as <-; apply LA; exact X|apply (i_lapd _ _ _ I j l' x E X)].
  - intros j k l1 l2 JK E1 E2. apply M in E1 as (m1 & E1 & -> & _). apply M in E2 as (m2 & E2 & -> & _). apply (i_dist _ _ _ I j k m1 m2 JK E1 E2).
  - intros j l' E. apply M in E as (l0 & E & -> & _). apply (i_distg _ _ _ I j l0 E).
Qed.
Lemma step_inv pre used s o bad ws e s' : Inv pre used s -> plain o -> Forall (fun w => w = WFull) ws ->
  (forall f, In f (handed1 o) -> ~ In f used) -> step bad ws s o = Some (e, s') -> Inv (pre ++ e) (handed1 o ++ used) s'.
Proof.
  intros I P W F H. destruct o; cbn [step plain handed1] in *; try contradiction.
  - injection H as H. eapply setglobal_inv; [exact I| |exact H]. intros Q. apply F. destruct (Z.leb_spec 0 fd); [left; reflexivity|lia].
  - eapply setline_inv; [exact I| |exact H]. intros Q. apply F. destruct (Z.leb_spec 0 fd); [left; reflexivity|lia].
  - injection H as <- <-. rewrite app_nil_r. unfold line_create.
    assert (M : forall j l', nth_error (p_lines s ++ [mkPL (-1) (repeat None 32) true]) j = Some l' ->
       nth_error (p_lines s) j = Some l' \/ (j = length (p_lines s) /\ l' = mkPL (-1) (repeat None 32) true)).
    { intros j l' E. destruct (Nat.lt_ge_cases j (length (p_lines s))) as [J|J]; [left; rewrite nth_error_app1 in E by exact J; exact E|right].
      rewrite nth_error_app2 in E by exact J. destruct (j - length (p_lines s))%nat as [|q] eqn:Q; [injection E as <-; split; [lia|reflexivity]|].
      destruct q; discriminate. }
    constructor; cbn [g_fd p_lines]; try apply I.
    + intros j l' E. apply M in E as [E|[_ ->]]; [apply (i_line _ _ _ I j l' E)|cbn; split; [reflexivity|left; lia]].
    + intros j l' x E X. apply M in E as [E|[_ ->]]; [apply (i_lapd _ _ _ I j l' x E X)|]. cbn in X. decompose [or] X; (discriminate || contradiction).
    + intros j k l1 l2 JK E1 E2 Q. apply M in E1 as [E1|[X1 ->]]; [|cbn in Q; lia]. apply M in E2 as [E2|[X2 ->]]; [apply (i_dist _ _ _ I j k l1 l2 JK E1 E2 Q)|cbn; lia].
    + intros j l' E Q. apply M in E as [E|[_ ->]]; [apply (i_distg _ _ _ I j l' E Q)|cbn in Q; lia].
  - destruct (lapd_alloc s i n) as [s1|] eqn:E; [|discriminate]. injection H as <- <-. rewrite app_nil_r. cbn [app].
    unfold lapd_alloc, get in E. destruct (nth_error (p_lines s) i) as [l|] eqn:N; [|discriminate]. destruct (put (pl_lapd l) n _) as [la|] eqn:PL; [|discriminate].
    eapply same_fd_inv; [exact I|exact N| |exact E]. intros x X. apply In_nth_error in X as [j X]. destruct (put_nth _ _ _ _ PL) as [_ PN]. rewrite PN in X.
    destruct (j =? n)%nat; [injection X as <-; left; lia|]. apply nth_error_In in X. apply (i_lapd _ _ _ I i l x N X).
  - destruct (line_update s i) as [s1|] eqn:E; [|discriminate]. injection H as <- <-. rewrite app_nil_r. cbn [app].
    unfold line_update, get in E. destruct (nth_error (p_lines s) i) as [l|] eqn:N; [|discriminate].
    eapply same_fd_inv; [exact I|exact N| |exact E]. intros x X. apply in_set_lapd in X. right. left. exact X.
  - destruct (capture _ _ _ _ _ _ _ _ _ _) as [e1|] eqn:E; [|discriminate]. injection H as <- <-. cbn [app].
    destruct P as (P1 & P2 & P3). eapply capture_inv; eassumption.
Qed.
Lemma nodup_r {A} (a b : list A) : NoDup (a ++ b) -> NoDup b.
Proof. induction a as [|x a IH]; [auto|]. intros H. inversion H; auto. Qed.
Lemma run_inv : forall os pre used s es s', Inv pre used s -> run s os = Some (es, s') ->
  Forall (fun x => plain (fst (fst x)) /\ Forall (fun w => w = WFull) (snd x)) os ->
  NoDup (handed os) -> (forall f, In f (handed os) -> ~ In f used) -> exists used', Inv (pre ++ es) used' s' /\ incl used' (handed os ++ used).
Proof.
  induction os as [|[[o bad] ws] os IH]; intros pre used s es s' I H F D U; cbn [run] in H.
  - injection H as <- <-. rewrite app_nil_r. exists used. split; [exact I|apply incl_refl].
  - destruct (step bad ws s o) as [[e s1]|] eqn:E; [|discriminate]. destruct (run s1 os) as [[e' s2]|] eqn:R; [|discriminate]. injection H as <- <-.
    inversion F as [|? ? [P W] F' X]; subst. cbn [fst snd] in *. cbn [handed flat_map fst] in *. fold (handed os) in *.
    rewrite app_assoc. pose proof (nodup_r _ _ D) as D'.
    destruct (IH (pre ++ e) (handed1 o ++ used) s1 e' s2) as (u & I' & IN); [|exact R|exact F'|exact D'| |].
    + eapply step_inv; [exact I|exact P|exact W| |exact E]. intros f Q. apply U, in_or_app. left. exact Q.
    + intros f Q. rewrite in_app_iff. intros [Y|Y]; [|apply (U f); [apply in_or_app; right; exact Q|exact Y]].
      apply in_split in Y as (a & b & Y). rewrite Y in D. rewrite <- app_assoc in D. cbn in D. apply NoDup_remove_2 in D. apply D.
      apply in_or_app. right. apply in_or_app. right. exact Q.
    + exists u. split; [exact I'|]. intros x X1. apply IN in X1. rewrite !in_app_iff in *. tauto.
Qed.
Lemma inv0 : Inv [] [] pst0.
Proof.
  constructor; cbn; try (intros; destruct i; discriminate).
  - intros. split; [reflexivity|tauto].
  - intros. left. reflexivity.
  - left. lia.
  - intros a e b E. destruct a; discriminate.
Qed.
(** in every regular history: each file is empty or a complete, well-formed PCAP
    file, and no descriptor is used after the library closed it *)
Theorem C49_files : forall os es s, run pst0 os = Some (es, s) -> regular os ->
  (forall f, octets f es = [] \/ exists ps, pcap_file (octets f es) 65535 177 ps) /\ no_use_after_close es.
Proof.
  intros os es s H [D F]. destruct (run_inv os [] [] pst0 es s inv0 H F D) as (u & I & _); [intros f _ []|]. split; [apply (i_files _ _ _ I)|apply (i_safe _ _ _ I)].
Qed.
(** after every regular history a signalling message passing a timeslot whose capture
    descriptor is [f] appends exactly one packet to that file, which holds the
    message, and changes no other *)
Theorem C49_capture : forall os es s i n out sapi tei sec usec m ws k f e,
  run pst0 os = Some (es, s) -> regular os -> Forall (fun w => w = WFull) ws -> plain (Capture i n out sapi tei sec usec m) ->
  target s i n = Some (k, f) -> 0 <= f -> capture ws s i n out sapi tei sec usec m = Some e ->
  ~ In (PClose f) es /\ In f (handed os) /\
  exists ps p, pcap_file (octets f es) 65535 177 ps /\ pcap_file (octets f (es ++ e)) 65535 177 (ps ++ [p]) /\
    (if k then lapd_packet p (if out then 4 else 0) m else lapd_packet p 1024 (ui_frame sapi tei out m)) /\
    forall g, g <> f -> octets g (es ++ e) = octets g es.
Proof.
  intros os es s i n out sapi tei sec usec m ws k f e H [D F] W (P1 & P2 & P3) T P C.
  assert (HI : exists used, Inv ([] ++ es) used s /\ incl used (handed os)).
  { destruct (run_inv os [] [] pst0 es s inv0 H F D) as (u & I & IN); [intros ? _ []|]. exists u. split; [exact I|]. rewrite app_nil_r in IN. exact IN. }
  destruct HI as (u & I & IN). cbn [app] in I.
  destruct (target_live _ _ _ _ _ _ _ I T P) as (L1 & (ps & L2) & L3). split; [exact L3|]. split; [apply IN, L1|].
  destruct (capture_full _ _ _ _ _ _ _ _ _ _ _ W C) as (k' & f' & T' & [[X _]|(_ & O & _)]); rewrite T in T'; injection T' as <- <-; [lia|].
  destruct (record_reads k out sapi tei sec usec m P1 P2 P3) as (p & R & PK). exists ps, p. split; [exact L2|]. split.
  - rewrite octets_app, O, Z.eqb_refl. apply file_snoc; assumption.
  - split; [exact PK|]. intros g N. rewrite octets_app, O. destruct (Z.eqb_spec g f); [contradiction|apply app_nil_r].
Qed.
Example C49_witness :
  let os := [(LineCreate, false, []); (LapdAlloc 0 1, false, []); (SetLine 0 7, false, []); (Capture 0 1 true 0 0 100 5 [2; 3; 127], false, []);
             (Capture 0 0 false 62 25 101 6 [9; 9], false, [WFull]); (SetGlobal 8, false, []); (LineUpdate 0, false, []); (SetLine 0 9, true, [])] in
  match run pst0 os with
  | Some (es, s) => regular os /\ target s 0 1 = Some (true, 7) /\ target s 0 0 = Some (false, 7) /\ octets 8 es = pcap_hdr /\
      length (octets 7 es) = (24 + 35 + 37)%nat
  | None => False
  end.
Proof.
  vm_compute. split; [|auto]. split; [repeat (constructor; [cbn; intuition discriminate|]); constructor|].
  repeat (constructor; [split; [try exact I; repeat split; discriminate|repeat constructor]|]). constructor.
Qed.

(** outside regular histories: *)
(** a short write leaves a file nothing can read any more *)
Theorem C49_short_write_refuted : exists os es s f, run pst0 os = Some (es, s) /\ octets f es <> [] /\ forall sn lt ps, ~ pcap_file (octets f es) sn lt ps.
Proof.
  exists [(LineCreate, false, []); (LapdAlloc 0 1, false, []); (SetLine 0 7, false, []); (Capture 0 1 true 0 0 0 0 [2; 3; 127], false, [WPart 20])].
  eexists _, _, 7. split; [vm_compute; reflexivity|]. split; [vm_compute; discriminate|]. intros sn lt ps (h & b & E & H & R).
  destruct H as [mg ma mi tz sf sn nw L1 L2 L3 L4 L5 L6 L7].
  assert (LB : length b = 20%nat).
  { apply (f_equal (@length Z)) in E. rewrite !app_length in E. change (length (octets 7 _)) with 44%nat in E. lia. }
  assert (EB : b = skipn 24 (octets 7 [PWrite 7 pcap_hdr; PWrite 7 (firstn 20 (lapd_record true 0 0 [2; 3; 127]))])).
  { change (octets 7 _) with (octets 7 [PWrite 7 pcap_hdr; PWrite 7 (firstn 20 (lapd_record true 0 0 [2; 3; 127]))]) in E. rewrite E.
    rewrite skipn_app, skipn_all2 by (rewrite !app_length; lia). replace (24 - length _)%nat with 0%nat by (rewrite !app_length; lia). reflexivity. }
  vm_compute in EB. destruct R as [|s u i o d rest ps M1 M2 M3 M4 F1 F2]; [discriminate|].
  destruct s as [|s0 [|s1 [|s2 [|s3 [|]]]]]; try discriminate. destruct u as [|u0 [|u1 [|u2 [|u3 [|]]]]]; try discriminate.
  destruct i as [|i0 [|i1 [|i2 [|i3 [|]]]]]; try discriminate. destruct o as [|o0 [|o1 [|o2 [|o3 [|]]]]]; try discriminate.
  cbn [app] in EB. injection EB as _ _ _ _ _ _ _ _ -> -> -> -> _ _ _ _ EB. cbn in F1.
  apply (f_equal (@length Z)) in EB. rewrite app_length in EB. cbn in EB. lia.
Qed.
(** a clone keeps its copy of the descriptor when capturing is switched off *)
Theorem C49_clone_refuted : exists os es s, run pst0 os = Some (es, s) /\ NoDup (handed os) /\ ~ no_use_after_close es.
Proof.
  exists [(LineCreate, false, []); (SetLine 0 7, false, []); (LineClone 0, false, []); (SetLine 0 (-1), false, []); (Capture 1 0 true 0 255 0 0 [1], false, [])].
  eexists _, _. split; [vm_compute; reflexivity|]. split; [repeat constructor; intros []|]. intros H.
  refine (H [PWrite 7 pcap_hdr; PClose 7] (PWrite 7 _) _ eq_refl _). right. left. reflexivity.
Qed.
(** after the shutdown signal the LAPD instances go on writing *)
Theorem C49_shutdown_refuted : exists os es s, run pst0 os = Some (es, s) /\ NoDup (handed os) /\ ~ no_use_after_close es.
Proof.
  exists [(LineCreate, false, []); (LapdAlloc 0 1, false, []); (SetLine 0 7, false, []); (Shutdown, false, []); (Capture 0 1 true 0 0 0 0 [1], false, [])].
  eexists _, _. split; [vm_compute; reflexivity|]. split; [repeat constructor; intros []|]. intros H.
  refine (H [PWrite 7 pcap_hdr; PClose 7] (PWrite 7 _) _ eq_refl _). right. left. reflexivity.
Qed.
(** giving a line the descriptor it already has closes it and keeps it *)
Theorem C49_same_fd_refuted : exists os es s, run pst0 os = Some (es, s) /\ Forall (fun x => plain (fst (fst x))) os /\ ~ no_use_after_close es.
Proof.
  exists [(LineCreate, false, []); (SetLine 0 7, false, []); (SetLine 0 7, false, []); (Capture 0 0 true 0 0 0 0 [1], false, [])].
  eexists _, _. split; [vm_compute; reflexivity|]. split; [repeat constructor; cbn; lia|]. intros H.
  refine (H [PWrite 7 pcap_hdr; PWrite 7 pcap_hdr; PClose 7] (PWrite 7 _) _ eq_refl _). right. right. left. reflexivity.
Qed.
(** a line whose driver starts after e1_set_pcap_fd is not captured *)
Theorem C49_late_line_refuted : exists os es s, run pst0 os = Some (es, s) /\ regular os /\ g_fd s = 7 /\ target s 0 1 = Some (true, -1).
Proof.
  exists [(SetGlobal 7, false, []); (LineCreate, false, []); (LapdAlloc 0 1, false, []); (LineUpdate 0, false, [])].
  eexists _, _. split; [vm_compute; reflexivity|]. split; [|split; reflexivity]. split; [repeat constructor; intros []|].
  repeat (constructor; [split; [exact I|constructor]|]). constructor.
Qed.
(** a header that cannot be written: osmo_pcap_lapd_open closes the descriptor twice *)
Theorem C49_open_refuted : exists ws fd es rc ws', osmo_pcap_lapd_open ws fd = (es, rc, ws') /\ es = [PWrite fd []; PClose fd; PClose fd].
Proof. exists [WPart 0], 7. eexists _, _, _. split; reflexivity. Qed.
(** opening otherwise: a file with a header, or an error and nothing written *)
Theorem C49_open : forall fd, exists es, osmo_pcap_lapd_open [] fd = (es, (if fd <? 0 then -1 else fd), []) /\
  (fd < 0 /\ es = [] \/ 0 <= fd /\ pcap_file (octets fd es) 65535 177 [] /\ no_use_after_close es).
Proof.
  intros fd. unfold osmo_pcap_lapd_open, osmo_pcap_lapd_set_fd. cbn [do_write]. destruct (Z.ltb_spec fd 0).
  - exists []. split; [reflexivity|left; auto].
  - eexists. split; [reflexivity|]. right. split; [assumption|]. cbn [octets]. rewrite Z.eqb_refl, app_nil_r. split; [apply hdr_file|].
    intros a e b E. destruct a as [|x a]; [injection E as <- _; intros []|destruct a; discriminate].
Qed.
(** the shutdown signal: the descriptor of every listed line is closed, nothing else; what
    passes a timeslot without LAPD of such a line is captured nowhere any more, and a second
    signal closes nothing *)
Lemma shut_get s i l : get (p_lines s) i = Some l -> get (p_lines (snd (shutdown s))) i = Some (if pl_listed l then mkPL (-1) (pl_lapd l) true else l).
Proof. unfold get. intros H. cbn [shutdown snd p_lines]. rewrite nth_error_map, H. reflexivity. Qed.
Theorem C49_shutdown : forall bad ws s, exists es s', step bad ws s Shutdown = Some (es, s') /\
  (forall e, In e es <-> exists i l, get (p_lines s) i = Some l /\ pl_listed l = true /\ 0 <= pl_fd l /\ e = PClose (pl_fd l)) /\
  (NoDup (map pl_fd (filter (fun l => pl_listed l && (0 <=? pl_fd l)) (p_lines s))) -> NoDup es) /\
  (forall i l n ws out sapi tei sec usec m, get (p_lines s) i = Some l -> pl_listed l = true -> nth_error (pl_lapd l) n = Some None -> step bad ws s' (Capture i n out sapi tei sec usec m) = Some ([], s')) /\
  (forall bad ws, exists s2, step bad ws s' Shutdown = Some ([], s2)).
Proof.
  intros bad ws s. exists (fst (shutdown s)), (snd (shutdown s)). split; [reflexivity|]. split; [|split; [|split]].
  - intros e. cbn [shutdown fst]. rewrite in_flat_map. split.
    + intros (l & L & E). apply In_nth_error in L as [i L]. destruct (pl_listed l) eqn:A; [|destruct E]. destruct (Z.leb_spec 0 (pl_fd l)); [|destruct E]. destruct E as [<-|[]]. exists i, l. auto.
    + intros (i & l & L & A & B & ->). exists l. split; [eapply nth_error_In; exact L|]. rewrite A. destruct (Z.leb_spec 0 (pl_fd l)); [now left|lia].
  - cbn [shutdown fst]. induction (p_lines s) as [|l ls IH]; cbn [flat_map filter]; [constructor|]. destruct (pl_listed l && (0 <=? pl_fd l)) eqn:A; cbn [map app]; [|exact IH]. intros ND. inversion ND as [|? ? N1 N2]; subst.
    constructor; [|now apply IH]. intros X. apply N1. apply in_flat_map in X as (l' & L & E). destruct (pl_listed l' && (0 <=? pl_fd l')) eqn:B; [|destruct E]. destruct E as [E|[]]. injection E as <-. apply in_map. apply filter_In. auto.
  - intros i l n ws' out sapi tei sec usec m G A N. cbn [step]. unfold capture, target. rewrite (shut_get _ _ _ G), A. cbn [pl_lapd]. change (get (pl_lapd l) n) with (nth_error (pl_lapd l) n). rewrite N. reflexivity.
  - intros b w. eexists. cbn [step]. unfold shutdown at 1. f_equal. f_equal. cbn [shutdown snd p_lines]. induction (p_lines s) as [|l ls IH]; [reflexivity|]. cbn [map flat_map]. rewrite IH. destruct (pl_listed l) eqn:E; cbn [pl_listed pl_fd]; [reflexivity|now rewrite E].
Qed.

(** what the functions of lapd_pcap.c return: 0 once the file header is written, -1 otherwise;
    writing a packet: 0 without a file, the number of octets, or -1 when not all were written *)
Theorem C49_returns ws fd :
  (let '(es, rc, _) := osmo_pcap_lapd_set_fd ws fd in rc = 0 /\ es = [PWrite fd pcap_hdr] \/ rc = -1 /\ exists d, es = [PWrite fd d; PClose fd] /\ (length d < 24)%nat) /\
  forall o sec usec m, let '(es, rc, ws') := osmo_pcap_lapd_write ws fd o sec usec m in
    (fd < 0 -> es = [] /\ rc = 0 /\ ws' = ws) /\
    (0 <= fd -> exists d, es = [PWrite fd d] /\ (rc = Z.of_nat (length m) + 32 /\ Z.of_nat (length d) = rc \/ rc = -1 /\ Z.of_nat (length d) < Z.of_nat (length m) + 32)).
Proof.
  assert (W : forall w d e ok w', do_write w fd d = (e, ok, w') -> exists d', e = PWrite fd d' /\ if ok then d' = d else (length d' < length d)%nat).
  { intros w d e ok w'. unfold do_write. destruct w as [|[|n] r]; intros [= <- <- <-]; try (exists d; easy). exists (firstn n d). split; [easy|]. destruct (Nat.leb_spec (length d) n); [now rewrite firstn_all2|rewrite firstn_length; lia]. }
  split.
  - unfold osmo_pcap_lapd_set_fd. destruct (do_write ws fd pcap_hdr) as [[e ok] w] eqn:E. destruct (W _ _ _ _ _ E) as (d & -> & X). destruct ok; [left; now rewrite X|right]. split; [easy|]. exists d. split; [easy|exact X].
  - intros o sec usec m. unfold osmo_pcap_lapd_write. destruct (fd <? 0) eqn:L; [split; [easy|apply Z.ltb_lt in L; lia]|]. apply Z.ltb_ge in L.
    assert (LEN : Z.of_nat (length (lapd_record o sec usec m)) = Z.of_nat (length m) + 32). { unfold lapd_record, pcap_rechdr, pcap_lapdhdr. rewrite !app_length, !le_length. cbn [length]. lia. }
    destruct (do_write ws fd (lapd_record o sec usec m)) as [[e ok] w] eqn:E. destruct (W _ _ _ _ _ E) as (d & -> & X). split; [lia|]. intros _. exists d. split; [easy|]. destruct ok; [left; subst d; now split|right]. split; [easy|lia].
Qed.

(** the header of a message that came without LAPD has six bits for the SAPI and seven for the
    TEI: of larger numbers the low bits are recorded *)
Theorem C49_fake_record_any : forall out sapi tei sec m, Z.of_nat (length m) <= 65516 ->
  exists p, records 65535 (fake_record out sapi tei sec m) [p] /\ p_sec p = sec mod 2^32 /\ lapd_packet p 1024 (ui_frame (sapi mod 64) (tei mod 128) out m).
Proof.
  intros out sapi tei sec m L. destruct (C49_fake_record out (sapi mod 64) (tei mod 128) sec m L) as (p & A & B & C); try (apply Z.mod_pos_bound; lia).
  exists p. split; [|now split]. revert A. unfold fake_record, lapd_header. now rewrite !Z.mod_mod by lia.
Qed.
