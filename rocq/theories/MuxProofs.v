From Coq Require Import List Arith Lia Bool ZArith.
From Verif Require Import Base Spec OldTrauModel OldTrauProofs DemuxSpec DemuxModel DemuxProofs.
Import ListNotations.

Definition idle_ok (st : idle_state) : Prop :=
  st = idle_initial \/ (dbits_initted st = true /\ encoded_idle_frame st = idle_pattern).

Lemma idle_ok_step st : idle_ok st -> exists st', trau_idle_frame st = Some (st', idle_pattern) /\ idle_ok st'.
Proof.
  intros [->|[I E]].
  - destruct idle_first as (st & E & I & P). exists st. split; [exact E|]. right. exact (conj I P).
  - exists st. unfold trau_idle_frame. rewrite I, E. split; [reflexivity|]. right. exact (conj I E).
Qed.

Definition rem (e : txe) : bits := skipn (next_bit e) (tbits e).
Definition even_entry (e : txe) : Prop := next_bit e <= length (tbits e) /\ Nat.Even (length (tbits e)) /\ Nat.Even (next_bit e).

Lemma even_rem e : even_entry e -> Nat.Even (length (rem e)).
Proof. intros (L & [a A] & [b B]). unfold rem. rewrite skipn_length. exists (a - b). lia. Qed.

Lemma set_queue_put qs c (q : list txe) : length qs = 4 -> c < 4 -> put qs c q = Some (splice qs c [q]).
Proof. intros. apply put_splice. lia. Qed.

Lemma idle_len : length idle_pattern = 320.
Proof. reflexivity. Qed.

Lemma splice_splice_same {A} (l : list A) o x y : o + length x <= length l -> length x = length y ->
  splice (splice l o x) o y = splice l o y.
Proof.
  intros H E. unfold splice at 1. rewrite <- E.
  assert (L : length (firstn o l) = o) by (rewrite firstn_length; lia).
  unfold splice. rewrite firstn_app_exact by assumption. rewrite (app_assoc _ x), skipn_app_exact.
  - now rewrite E.
  - rewrite app_length. lia.
Qed.

Definition gsb_body (rec : mux -> bits -> nat -> option (mux * bits)) (m : mux) (c : nat) (buf : bits) (off num_bits num_requested : nat) :=
      do q <- get (queues m) c;
      do m <- (match q with [] => alloc_add_idle_frame m c | _ => Some m end);
      do q <- get (queues m) c;
      match q with
      | [] => None
      | e :: q' =>
        let num_bits_left := length (tbits e) - next_bit e in
        let thistime := if num_bits_left <? num_requested then num_bits_left else num_requested in
        do buf <- memcpy buf (off + num_bits) (tbits e) (next_bit e) thistime;
        let nb := next_bit e + thistime in
        let q := if length (tbits e) <=? nb then q' else mkTxe (tbits e) nb :: q' in
        do qs <- put (queues m) c q;
        rec (mkMux qs (idle_st m)) buf (num_bits + thistime)
      end.
Lemma gsb_go fuel m c buf off nb nr : nb < nr -> get_subch_bits (S fuel) m c buf off nb nr =
  gsb_body (fun m buf nb => get_subch_bits fuel m c buf off nb nr) m c buf off nb nr.
Proof. intros H. cbn [get_subch_bits]. destruct (Nat.ltb_spec nb nr); [reflexivity|lia]. Qed.
Lemma gsb_stop fuel m c buf off nb nr : nr <= nb -> get_subch_bits (S fuel) m c buf off nb nr = Some (m, buf).
Proof. intros H. cbn [get_subch_bits]. destruct (Nat.ltb_spec nb nr); [lia|reflexivity]. Qed.

(** get_subch_bits of two bits on a channel whose entries all have even length *)
Lemma gsb_spec c buf off q : forall m fuel, c < 4 -> length (queues m) = 4 -> idle_ok (idle_st m) ->
  nth_error (queues m) c = Some q -> Forall even_entry q -> length buf = 8 -> off + 2 <= 8 ->
  length q + 3 <= fuel ->
  exists pr q' st', get_subch_bits fuel m c buf off 0 2 =
      Some (mkMux (splice (queues m) c [q']) st', splice buf off pr) /\
    length pr = 2 /\ Forall even_entry q' /\ idle_ok st' /\
    q_tick idle_pattern (map rem q) = (pr, map rem q').
Proof.
  induction q as [|e q IH]; intros m fuel Hc HL HI Hq Hev Hb Ho Hf.
  - (* empty: idle frame *)
    destruct fuel as [|[|fuel]]; [cbn in Hf; lia..|].
    destruct (idle_ok_step _ HI) as (st' & Ei & Hi').
    rewrite gsb_go by lia. unfold gsb_body, get. rewrite Hq.
    unfold alloc_add_idle_frame. rewrite Ei. change TRAU_FRAME_BITS with 320. rewrite (slice_all _ 320 idle_len).
    unfold subchan_mux_enqueue, get. cbn [queues idle_st]. rewrite Hq. change (2 <? length (@nil txe)) with false. cbn iota. cbn [app].
    rewrite set_queue_put by assumption. cbn [queues idle_st].
    rewrite nth_error_splice_same by lia. cbn [tbits next_bit].
    rewrite Nat.sub_0_r. change (length idle_pattern <? 2) with false. cbn iota.
    rewrite memcpy_splice by (rewrite ?idle_len; lia). rewrite Nat.add_0_r.
    change (length idle_pattern <=? 0 + 2) with false. cbn iota.
    rewrite set_queue_put; [|rewrite splice_length; cbn [length]; lia|assumption].
    exists (firstn 2 idle_pattern), [mkTxe idle_pattern 2], st'. split.
    { rewrite gsb_stop by lia. cbn [skipn].
      rewrite (splice_splice_same (queues m)) by (cbn [length]; lia). reflexivity. }
    split; [reflexivity|]. split; [|split; [assumption|reflexivity]].
    constructor; [|constructor]. split; [cbn [next_bit tbits]; rewrite idle_len; lia|].
    split; [exists 160; reflexivity|exists 1; reflexivity].
  - inversion Hev as [|? ? He Hq']; subst. destruct fuel as [|fuel]; [lia|].
    destruct He as (Hn & [a Ha] & [b Hb2]).
    rewrite gsb_go by lia. unfold gsb_body, get. rewrite Hq. cbn iota. rewrite Hq. cbn iota zeta.
    destruct (Nat.eq_dec (next_bit e) (length (tbits e))) as [Efull|Nfull].
    + (* nothing left in this entry *)
      replace (length (tbits e) - next_bit e) with 0 by lia. change (0 <? 2) with true. cbn iota.
      rewrite memcpy_splice by lia. cbn [firstn]. rewrite splice_nil, !Nat.add_0_r.
      destruct (Nat.leb_spec (length (tbits e)) (next_bit e)); [|lia].
      rewrite set_queue_put by assumption. cbn [plus].
      edestruct (IH (mkMux (splice (queues m) c [q]) (idle_st m)) fuel) as (pr & q' & st' & E & R);
        cbn [queues idle_st]; try assumption.
      * rewrite splice_length; cbn [length]; lia.
      * apply nth_error_splice_same. lia.
      * cbn [length] in Hf. lia.
      * exists pr, q', st'. cbn [queues] in E. rewrite splice_splice_same in E by (cbn [length]; lia).
        split; [exact E|]. cbn [map q_tick].
        assert (Er : rem e = []) by (unfold rem; apply skipn_all2; lia). rewrite Er. exact R.
    + (* at least two bits left *)
      destruct (Nat.ltb_spec (length (tbits e) - next_bit e) 2); [lia|].
      rewrite memcpy_splice by lia. rewrite Nat.add_0_r. cbn [plus].
      rewrite set_queue_put by assumption.
      set (q' := if length (tbits e) <=? next_bit e + 2 then q else mkTxe (tbits e) (next_bit e + 2) :: q).
      exists (firstn 2 (rem e)), q', (idle_st m).
      assert (LR : 2 <= length (rem e)) by (unfold rem; rewrite skipn_length; lia).
      split; [|split; [|split; [|split]]].
      * destruct fuel; [cbn in Hf; lia|]. rewrite gsb_stop by lia. reflexivity.
      * rewrite firstn_length. lia.
      * unfold q'. destruct (Nat.leb_spec (length (tbits e)) (next_bit e + 2)); [assumption|].
        constructor; [|assumption]. split; [cbn [next_bit tbits]; lia|]. cbn [next_bit tbits].
        split; [now exists a|]. exists (b + 1). lia.
      * assumption.
      * cbn [map q_tick]. assert (E2 : map rem q' = match skipn 2 (rem e) with [] => map rem q | g => g :: map rem q end).
        { unfold q', rem. rewrite skipn_skipn'.
          destruct (Nat.leb_spec (length (tbits e)) (next_bit e + 2)).
          - rewrite skipn_all2 by lia. reflexivity.
          - cbn [map]. cbn [next_bit tbits].
            destruct (skipn (next_bit e + 2) (tbits e)) eqn:E; [|reflexivity].
            apply (f_equal (@length _)) in E. rewrite skipn_length in E. cbn in E. lia. }
        rewrite E2. destruct (rem e) as [|x r]; [cbn in LR; lia|]. reflexivity.
Qed.

(** * The whole multiplexer *)
Definition MI (ps : nat -> list bits) (m : mux) : Prop :=
  length (queues m) = 4 /\ idle_ok (idle_st m) /\
  forall c, c < 4 -> exists q, nth_error (queues m) c = Some q /\ Forall even_entry q /\ map rem q = ps c.

Definition setp (ps : nat -> list bits) (c : nat) (p : list bits) : nat -> list bits :=
  fun c' => if c' =? c then p else ps c'.

Lemma MI_ext ps1 ps2 m : (forall c, c < 4 -> ps1 c = ps2 c) -> MI ps1 m -> MI ps2 m.
Proof. intros X (L & I & H). split; [assumption|]. split; [assumption|]. intros c Hc. rewrite <- X by assumption. now apply H. Qed.

Lemma MI_get ps m c buf off : MI ps m -> c < 4 -> length buf = 8 -> off + 2 <= 8 ->
  exists m', get_subch_bits (fuel_for m c) m c buf off 0 2 =
     Some (m', splice buf off (fst (q_tick idle_pattern (ps c)))) /\
     length (fst (q_tick idle_pattern (ps c))) = 2 /\
     MI (setp ps c (snd (q_tick idle_pattern (ps c)))) m'.
Proof.
  intros (L & I & H) Hc Hb Ho. destruct (H c Hc) as (q & Eq & Ev & Er).
  unfold fuel_for, get. rewrite Eq.
  destruct (gsb_spec c buf off q m (length q + 6) Hc L I Eq Ev Hb Ho ltac:(lia)) as (pr & q' & st' & E & Lp & Ev' & I' & T).
  rewrite Er in T. rewrite T. cbn [fst snd]. eexists. split; [exact E|]. split; [assumption|].
  split; [cbn [queues]; rewrite splice_length; cbn [length]; lia|]. split; [assumption|].
  intros c' Hc'. unfold setp. cbn [queues]. destruct (Nat.eqb_spec c' c) as [->|N].
  - exists q'. split; [apply nth_error_splice_same; lia|]. now split.
  - destruct (H c' Hc') as (q0 & E0 & R0). exists q0. split; [|assumption].
    rewrite nth_error_splice_other; [assumption|lia|assumption].
Qed.

Lemma compact_spec b0 b1 b2 b3 b4 b5 b6 b7 : exists v, compact_bits [b0;b1;b2;b3;b4;b5;b6;b7] = Some v /\
  (0 <= v < 256)%Z /\ byte_pair 0 v = [b0;b1] /\ byte_pair 1 v = [b2;b3] /\ byte_pair 2 v = [b4;b5] /\ byte_pair 3 v = [b6;b7].
Proof.
  destruct b0, b1, b2, b3, b4, b5, b6, b7; (eexists; split; [vm_compute; reflexivity|]; repeat split; try reflexivity; lia).
Qed.

Definition tick1 (ps : nat -> list bits) (c : nat) := q_tick idle_pattern (ps c).

Lemma MI_byte ps m junk : MI ps m -> length junk = 8 ->
  exists m' v, mux_output_byte junk m = Some (m', v) /\ (0 <= v < 256)%Z /\
    (forall c, c < 4 -> byte_pair c v = fst (tick1 ps c)) /\
    MI (fun c => snd (tick1 ps c)) m'.
Proof.
  intros H Hj. unfold mux_output_byte.
  destruct (MI_get ps m 0 junk 0 H) as (m1 & -> & L0 & H1); [lia..|].
  set (p0 := fst (q_tick idle_pattern (ps 0))) in *.
  assert (J1 : length (splice junk 0 p0) = 8) by (rewrite splice_length; lia).
  destruct (MI_get _ m1 1 (splice junk 0 p0) 2 H1) as (m2 & -> & L1 & H2); [lia..|].
  cbn [setp Nat.eqb] in *. set (p1 := fst (q_tick idle_pattern (ps 1))) in *.
  rewrite splice_next by lia.
  assert (J2 : length (splice junk 0 (p0 ++ p1)) = 8) by (rewrite splice_length; rewrite ?app_length; lia).
  destruct (MI_get _ m2 2 (splice junk 0 (p0 ++ p1)) 4 H2) as (m3 & -> & L2 & H3); [lia..|].
  cbn [setp Nat.eqb] in *. set (p2 := fst (q_tick idle_pattern (ps 2))) in *.
  rewrite splice_next by (rewrite ?app_length; lia).
  assert (J3 : length (splice junk 0 ((p0 ++ p1) ++ p2)) = 8) by (rewrite splice_length; rewrite ?app_length; lia).
  destruct (MI_get _ m3 3 (splice junk 0 ((p0 ++ p1) ++ p2)) 6 H3) as (m4 & -> & L3 & H4); [lia..|].
  cbn [setp Nat.eqb] in *. set (p3 := fst (q_tick idle_pattern (ps 3))) in *.
  rewrite splice_next by (rewrite ?app_length; lia).
  rewrite splice_full by (rewrite !app_length; lia).
  assert (E0 : p0 = fst (tick1 ps 0)) by reflexivity.
  assert (E1 : p1 = fst (tick1 ps 1)) by reflexivity.
  assert (E2 : p2 = fst (tick1 ps 2)) by reflexivity.
  assert (E3 : p3 = fst (tick1 ps 3)) by reflexivity.
  clearbody p0 p1 p2 p3.
  destruct p0 as [|a0[|a1[|]]]; try discriminate. destruct p1 as [|a2[|a3[|]]]; try discriminate.
  destruct p2 as [|a4[|a5[|]]]; try discriminate. destruct p3 as [|a6[|a7[|]]]; try discriminate.
  cbn [app]. destruct (compact_spec a0 a1 a2 a3 a4 a5 a6 a7) as (v & -> & R & B0 & B1 & B2 & B3).
  exists m4, v. split; [reflexivity|]. split; [assumption|]. split.
  - intros c Hc. do 4 (destruct c as [|c]; [congruence|]). lia.
  - eapply MI_ext; [|exact H4]. intros c Hc. do 4 (destruct c as [|c]; [reflexivity|]). lia.
Qed.

Lemma MI_enqueue ps m c data : MI ps m -> c < 4 -> Nat.Even (length data) ->
  exists m', subchan_mux_enqueue m c data = Some m' /\ MI (setp ps c (q_add (ps c) data)) m'.
Proof.
  intros (L & I & H) Hc Hd. destruct (H c Hc) as (q & Eq & Ev & Er).
  unfold subchan_mux_enqueue, get. rewrite Eq, set_queue_put by assumption.
  set (q' := (if 2 <? length q then tx_queue_evict q (length q - 2) else q) ++ [mkTxe data 0]).
  assert (Eq' : q' = skipn (length q - 2) q ++ [mkTxe data 0]).
  { unfold q', tx_queue_evict. destruct (Nat.ltb_spec 2 (length q)); [reflexivity|].
    now replace (length q - 2) with 0 by lia. }
  eexists. split; [reflexivity|].
  split; [cbn [queues]; rewrite splice_length; cbn [length]; lia|]. split; [assumption|].
  intros c' Hc'. unfold setp. cbn [queues]. destruct (Nat.eqb_spec c' c) as [->|N].
  - exists q'. split; [apply nth_error_splice_same; lia|]. rewrite Eq'. split.
    + apply Forall_app. split.
      * rewrite <- (firstn_skipn (length q - 2) q) in Ev. apply Forall_app in Ev. apply Ev.
      * constructor; [|constructor]. split; [cbn; lia|]. split; [assumption|exists 0; reflexivity].
    + unfold q_add. rewrite map_app, <- Er, map_length, <- skipn_map. reflexivity.
  - destruct (H c' Hc') as (q0 & E0 & R0). exists q0. split; [|assumption].
    rewrite nth_error_splice_other; [assumption|lia|assumption].
Qed.

(** what happens on sub-channel [c] *)
Fixpoint events (c : nat) (l : list mop) : list chev :=
  match l with
  | [] => []
  | Enqueue c' data :: r => (if c' =? c then [Queue data] else []) ++ events c r
  | Out n :: r => repeat Tick n ++ events c r
  end.

Definition mop_ok (o : mop) : Prop :=
  match o with Enqueue c data => c < 4 /\ Nat.Even (length data) | Out _ => True end.

Lemma queue_run_app idle a b : forall p, queue_run idle p (a ++ b) =
  let '(o, p1) := queue_run idle p a in let '(o', p2) := queue_run idle p1 b in (o ++ o', p2).
Proof.
  induction a as [|[f|] a IH]; intros p; cbn [app queue_run].
  - now destruct (queue_run idle p b).
  - apply IH.
  - destruct (q_tick idle p) as [o p1]. rewrite IH. destruct (queue_run idle p1 a) as [o1 p2].
    destruct (queue_run idle p2 b) as [o2 p3]. now rewrite app_assoc.
Qed.

Lemma channel_bits_cons c v l : channel_bits c (v :: l) = byte_pair c v ++ channel_bits c l.
Proof. reflexivity. Qed.
Lemma channel_bits_app c a b : channel_bits c (a ++ b) = channel_bits c a ++ channel_bits c b.
Proof. unfold channel_bits. apply flat_map_app. Qed.

Lemma MI_out junk n : forall ps m, MI ps m -> length junk = 8 ->
  exists m' out, subchan_mux_out junk m n = Some (m', out) /\ length out = n /\
    Forall (fun v => (0 <= v < 256)%Z) out /\
    (forall c, c < 4 -> channel_bits c out = fst (queue_run idle_pattern (ps c) (repeat Tick n))) /\
    MI (fun c => snd (queue_run idle_pattern (ps c) (repeat Tick n))) m'.
Proof.
  induction n as [|n IH]; intros ps m H Hj; cbn [subchan_mux_out repeat queue_run].
  - exists m, []. do 2 (split; [reflexivity || constructor|]). try (split; [constructor|]). split; [reflexivity|exact H].
  - destruct (MI_byte ps m junk H Hj) as (m1 & v & -> & R & B & H1).
    destruct (IH _ m1 H1 Hj) as (m2 & out & -> & L & F & C & H2).
    exists m2, (v :: out). split; [reflexivity|]. split; [cbn; congruence|]. split; [now constructor|]. split.
    + intros c Hc. rewrite channel_bits_cons, C, B by assumption. unfold tick1.
      destruct (q_tick idle_pattern (ps c)) as [o p]. cbn [fst snd].
      now destruct (queue_run idle_pattern p (repeat Tick n)).
    + eapply MI_ext; [|exact H2]. intros c Hc. unfold tick1.
      destruct (q_tick idle_pattern (ps c)) as [o p]. cbn [fst snd].
      now destruct (queue_run idle_pattern p (repeat Tick n)).
Qed.

Lemma MI_ops junk l : forall ps m, MI ps m -> length junk = 8 -> Forall mop_ok l ->
  exists m' out, mops junk m l = Some (m', out) /\ Forall (fun v => (0 <= v < 256)%Z) out /\
    (forall c, c < 4 -> channel_bits c out = fst (queue_run idle_pattern (ps c) (events c l))) /\
    MI (fun c => snd (queue_run idle_pattern (ps c) (events c l))) m'.
Proof.
  induction l as [|[c data|n] l IH]; intros ps m H Hj F; cbn [mops events].
  - exists m, []. split; [reflexivity|]. split; [constructor|]. split; [reflexivity|exact H].
  - inversion F as [|? ? Fo Fl]; subst. destruct Fo as [Fc Fd].
    destruct (MI_enqueue ps m c data H Fc Fd) as (m1 & -> & H1).
    destruct (IH _ m1 H1 Hj Fl) as (m2 & out & -> & R & C & H2).
    exists m2, out. split; [reflexivity|]. split; [assumption|].
    assert (X : forall c', queue_run idle_pattern (ps c') ((if c =? c' then [Queue data] else []) ++ events c' l) =
       queue_run idle_pattern (setp ps c (q_add (ps c) data) c') (events c' l)).
    { intros c'. unfold setp. rewrite Nat.eqb_sym. destruct (Nat.eqb_spec c' c) as [->|]; reflexivity. }
    split.
    + intros c' Hc'. rewrite X. now apply C.
    + eapply MI_ext; [|exact H2]. intros c' Hc'. now rewrite X.
  - inversion F as [|? ? _ Fl]; subst.
    destruct (MI_out junk n ps m H Hj) as (m1 & o1 & -> & L1 & R1 & C1 & H1).
    destruct (IH _ m1 H1 Hj Fl) as (m2 & out & -> & R & C & H2).
    exists m2, (o1 ++ out). split; [reflexivity|]. split; [apply Forall_app; now split|]. split.
    + intros c Hc. rewrite channel_bits_app, C1, C, queue_run_app by assumption.
      destruct (queue_run idle_pattern (ps c) (repeat Tick n)) as [o p]. cbn [fst snd].
      now destruct (queue_run idle_pattern p (events c l)).
    + eapply MI_ext; [|exact H2]. intros c Hc. rewrite queue_run_app.
      destruct (queue_run idle_pattern (ps c) (repeat Tick n)) as [o p]. cbn [fst snd].
      now destruct (queue_run idle_pattern p (events c l)).
Qed.

Lemma MI_init : MI (fun _ => []) subchan_mux_init.
Proof.
  split; [reflexivity|]. split; [now left|]. intros c Hc. exists []. split; [|split; [constructor|reflexivity]].
  do 4 (destruct c as [|c]; [reflexivity|]). lia.
Qed.

(** * Entry queue versus flat fifo *)
Definition evens (p : list bits) := Forall (fun f : bits => Nat.Even (length f)) p.

Lemma q_tick_evens idle p : Nat.Even (length idle) -> evens p -> evens (snd (q_tick idle p)).
Proof.
  intros [i Hi] H. induction p as [|f p IH]; cbn [q_tick snd].
  - constructor; [|constructor]. exists (i - 1). rewrite skipn_length. lia.
  - inversion H as [|? ? [a Ha] Hp]; subst. destruct f as [|x f]; [now apply IH|]. cbn [snd].
    destruct (skipn 2 (x :: f)) as [|y g] eqn:E; [assumption|]. constructor; [|assumption].
    exists (a - 1). rewrite <- E, skipn_length. lia.
Qed.

Lemma q_add_nodrop (p : list (list bool)) f : length p <= 2 -> q_add p f = p ++ [f].
Proof. intros H. unfold q_add. now replace (length p - 2) with 0 by lia. Qed.

Lemma fifo_queue idle l : forall p, 2 <= length idle -> Nat.Even (length idle) -> evens p ->
  evens (queued l) -> no_drop idle p l ->
  fifo idle (concat p) l = (fst (queue_run idle p l), concat (snd (queue_run idle p l))).
Proof.
  induction l as [|[f|] l IH]; intros p Hi Hie Hp Hl Hn; cbn [fifo queue_run].
  - reflexivity.
  - cbn [no_drop] in Hn. destruct Hn as [Hl2 Hn]. cbn [queued flat_map] in Hl. inversion Hl; subst.
    rewrite <- (IH (q_add p f)); try assumption.
    + rewrite q_add_nodrop by assumption. rewrite concat_app. cbn. now rewrite app_nil_r.
    + rewrite q_add_nodrop by assumption. apply Forall_app. split; [assumption|]. now constructor.
  - cbn [no_drop] in Hn. cbn [queued flat_map app] in Hl.
    pose proof (q_tick_evens idle p Hie Hp) as He.
    specialize (IH (snd (q_tick idle p)) Hi Hie He Hl Hn).
    assert (T : let buf := match concat p with [] => idle | b => b end in
                firstn 2 buf = fst (q_tick idle p) /\ skipn 2 buf = concat (snd (q_tick idle p))).
    { clear IH Hn He. induction p as [|g p IHp]; cbn [concat q_tick].
      - cbn [fst snd concat]. now rewrite app_nil_r.
      - inversion Hp as [|? ? [a Ha] Hp']; subst. destruct g as [|x g]; [now apply IHp|].
        destruct g as [|y g]; [cbn in Ha; lia|]. cbn [app firstn skipn fst snd].
        destruct g; split; reflexivity. }
    destruct T as [T1 T2].
    replace (match concat p with [] => idle | _ :: _ => concat p end) with (match concat p with [] => idle | b => b end)
      by (now destruct (concat p)).
    rewrite T1, T2, IH. destruct (q_tick idle p) as [o p1]. cbn [fst snd].
    now destruct (queue_run idle p1 l).
Qed.

(** what the fifo sends is the queued strings with idle strings in between *)
Lemma fifo_fills idle l : forall buf, 2 <= length idle -> evens (queued l) -> Nat.Even (length buf) -> Nat.Even (length idle) ->
  exists L, fills idle (queued l) L /\ buf ++ concat L = fst (fifo idle buf l) ++ snd (fifo idle buf l).
Proof.
  induction l as [|[f|] l IH]; intros buf Hi Hl Hb Hie; cbn [fifo queued flat_map].
  - exists []. split; [constructor|]. cbn. apply app_nil_r.
  - inversion Hl as [|? ? Hf Hl']; subst. destruct (IH (buf ++ f) Hi Hl') as (L & F & E); [|assumption|].
    { rewrite app_length. destruct Hb as [a ->]. cbn in Hf. destruct Hf as [b ->]. exists (a + b). lia. }
    exists (f :: L). split; [now constructor|]. cbn [concat]. rewrite app_assoc. exact E.
  - set (b := match buf with [] => idle | _ => buf end).
    assert (Hb2 : 2 <= length b /\ Nat.Even (length b)).
    { unfold b. destruct buf as [|x buf]; [now split|]. split; [|assumption].
      destruct Hb as [a Ha]. cbn [length] in *. lia. }
    destruct Hb2 as [Hb2 [a Ha]].
    assert (Hs : Nat.Even (length (skipn 2 b))) by (exists (a - 1); rewrite skipn_length; lia).
    destruct (IH (skipn 2 b) Hi Hl Hs Hie) as (L & F & E).
    destruct (fifo idle (skipn 2 b) l) as [o rest]. cbn [fst snd] in *.
    destruct buf as [|x buf].
    + exists (idle :: L). split; [now constructor|]. cbn [concat app]. rewrite <- app_assoc, <- E, app_assoc.
      unfold b. now rewrite firstn_skipn.
    + exists L. split; [assumption|]. rewrite <- app_assoc, <- E, app_assoc. unfold b. now rewrite firstn_skipn.
Qed.

(** * Streams of clean frames *)
Lemma sync_at_one h k : sync_at h k -> nth_error h (k + 16) = Some true.
Proof.
  intros S. rewrite <- nth_error_skipn, <- (nth_error_firstn _ 17) by lia. rewrite S. reflexivity.
Qed.
Lemma sync_at_zeros h k i : sync_at h k -> i < 16 -> nth_error h (k + i) = Some false.
Proof.
  intros S Hi. rewrite <- nth_error_skipn, <- (nth_error_firstn _ 17) by lia. rewrite S. unfold sync_header.
  rewrite nth_error_app1 by (rewrite repeat_length; lia). now apply nth_error_repeat.
Qed.

Lemma sync_at_shift p h k : sync_at (p ++ h) (length p + k) <-> sync_at h k.
Proof.
  unfold sync_at. rewrite skipn_app, skipn_all2 by lia. cbn [app].
  now replace (length p + k - length p) with k by lia.
Qed.

Lemma clean_concat_length L : Forall clean L -> length (concat L) = 320 * length L.
Proof.
  induction 1 as [|f L [Hf _] _ IH]; [reflexivity|]. cbn [concat length]. rewrite app_length, IH. lia.
Qed.

Lemma clean_sync L : Forall clean L -> forall k, sync_at (concat L) k <-> exists j, k = 320 * j /\ j < length L.
Proof.
  induction 1 as [|f L [Hf Hs] HL IH]; intros k.
  { split; [intros S; apply sync_at_length in S; cbn in S; lia|]. intros (j & _ & Hj). cbn in Hj. lia. }
  cbn [concat length]. destruct (Nat.lt_ge_cases k 320) as [Lk|Lk].
  - destruct (Nat.eq_dec k 0) as [->|Nk].
    + split; [intros _; exists 0; lia|]. intros _. apply sync_at_app_l; [lia|]. now apply Hs.
    + split; [|intros (j & Hj & _); lia]. intros S. exfalso.
      destruct (Nat.le_gt_cases (k + 17) 320) as [L17|L17].
      * apply sync_at_app_l in S; [|lia]. apply Hs in S. lia.
      * apply sync_at_one in S. rewrite nth_error_app2 in S by lia. rewrite Hf in S.
        destruct L as [|g L]; [destruct (k + 16 - 320); discriminate|]. inversion HL as [|? ? [Hg Hgs] _]; subst.
        cbn [concat] in S. rewrite nth_error_app1 in S by lia.
        assert (S0 : sync_at g 0) by now apply Hgs.
        apply (sync_at_zeros _ _ (k + 16 - 320)) in S0; [|lia]. cbn [plus] in S0. congruence.
  - replace k with (length f + (k - 320)) by lia. rewrite sync_at_shift, IH. split.
    + intros (j & Hj & Hl). exists (S j). lia.
    + intros (j & Hj & Hl). exists (j - 1). lia.
Qed.

Lemma nth_firstn_S {A} (l : list A) n : n < length l -> exists x, nth_error l n = Some x /\ firstn (S n) l = firstn n l ++ [x].
Proof.
  revert l; induction n as [|n IH]; intros [|y l] H; cbn in H; try lia.
  - exists y. split; reflexivity.
  - destruct (IH l) as (x & E & F); [lia|]. exists x. split; [exact E|].
    change (firstn (S (S n)) (y :: l)) with (y :: firstn (S n) l). rewrite F. reflexivity.
Qed.

Lemma concat_window L j : Forall clean L -> j < length L ->
  nth_error L j = Some (firstn 320 (skipn (320 * j) (concat L))).
Proof.
  intros H. revert j. induction H as [|f L [Hf Hs] HL IH]; intros j Hj; [cbn in Hj; lia|].
  destruct j as [|j]; cbn [nth_error concat].
  - rewrite Nat.mul_0_r. cbn [skipn]. now rewrite firstn_app_exact.
  - cbn [length] in Hj. rewrite IH by lia. rewrite skipn_app, (skipn_all2 f) by (rewrite Hf; lia). cbn [app].
    now replace (320 * S j - length f) with (320 * j) by lia.
Qed.

Lemma frames_of_clean L : Forall clean L -> forall n, n <= 320 * length L ->
  frames_of (firstn n (concat L)) = firstn (n / 320) L.
Proof.
  intros HL. induction n as [|n IH]; intros Hn.
  { reflexivity. }
  pose proof (clean_concat_length L HL) as LC.
  destruct (nth_firstn_S (concat L) n) as (x & Ex & Es); [lia|].
  rewrite Es, frames_of_snoc, IH by lia. rewrite <- Es.
  rewrite firstn_length, Nat.min_l by lia.
  set (s := firstn (S n) (concat L)).
  assert (SS : forall k, sync_at s k <-> (k + 17 <= S n /\ exists j, k = 320 * j /\ j < length L)).
  { intros k. rewrite <- clean_sync by assumption. unfold s.
    rewrite <- (firstn_skipn (S n) (concat L)) at 2.
    assert (Ls : length (firstn (S n) (concat L)) = S n) by (rewrite firstn_length; lia). split.
    - intros S. pose proof (sync_at_length _ _ S) as X. rewrite Ls in X. split; [assumption|].
      apply sync_at_app_l; [lia|assumption].
    - intros [X S]. apply sync_at_app_l in S; [assumption|lia]. }
  destruct (frame_ends_at s (S n)) eqn:FE.
  - apply frame_ends_at_spec in FE. destruct FE as (L320 & S0 & _). apply SS in S0.
    destruct S0 as (_ & j & Ej & Hj).
    assert (En : S n = (j + 1) * 320) by lia.
    rewrite En, Nat.div_mul by lia.
    assert (E2 : n / 320 = j).
    { symmetry. apply (Nat.div_unique n 320 j 319); lia. }
    rewrite E2. destruct (nth_firstn_S L j Hj) as (f & Ef & Efs).
    rewrite Nat.add_1_r, Efs. f_equal. f_equal.
    rewrite (concat_window L j HL Hj) in Ef. injection Ef as <-.
    unfold s. replace (S j * 320 - 320) with (320 * j) by lia.
    rewrite skipn_firstn_comm. replace (S n - 320 * j) with 320 by lia. rewrite firstn_firstn. reflexivity.
  - rewrite app_nil_r. f_equal.
    assert (ND : forall j, S n <> 320 * S j).
    { intros j E. rewrite <- Bool.not_true_iff_false in FE. apply FE. apply frame_ends_at_spec.
      split; [lia|]. split.
      - apply SS. split; [lia|]. exists j. lia.
      - intros k K1 K2 S. apply SS in S. destruct S as (_ & i & Ei & _). lia. }
    pose proof (Nat.div_mod n 320 ltac:(lia)) as D. pose proof (Nat.mod_upper_bound n 320 ltac:(lia)) as B.
    apply (Nat.div_unique (S n) 320 (n / 320) (S (n mod 320))); [|lia].
    specialize (ND (n / 320)). lia.
Qed.

Lemma idle_clean : clean idle_pattern.
Proof.
  split; [reflexivity|]. intros k. split; [|intros ->; reflexivity].
  intros Sy. destruct k as [|k]; [reflexivity|]. exfalso.
  destruct (Nat.le_gt_cases (S k) 16) as [H|H].
  - apply (sync_at_zeros _ _ (16 - S k)) in Sy; [|lia]. replace (S k + (16 - S k)) with 16 in Sy by lia. discriminate.
  - pose proof (sync_at_length _ _ Sy) as L. rewrite idle_len in L.
    destruct (Nat.le_gt_cases (S k) 32).
    + apply (sync_at_zeros _ _ (32 - S k)) in Sy; [|lia]. replace (S k + (32 - S k)) with 32 in Sy by lia. discriminate.
    + apply (sync_at_zeros _ _ 0) in Sy; [|lia]. rewrite Nat.add_0_r in Sy.
      assert (X : forall i, 32 <= i -> i < 320 -> nth_error idle_pattern i = Some true).
      { intros i I1 I2. change idle_pattern with (firstn 32 idle_pattern ++ repeat true 288).
        rewrite nth_error_app2 by (cbn [length]; exact I1).
        apply nth_error_repeat. change (length (firstn 32 idle_pattern)) with 32. lia. }
      rewrite X in Sy by lia. discriminate.
Qed.
