(** * Properties C68-C70: a delta2 decompressor that is given anything. *)
From Coq Require Import String List NArith ZArith Bool Arith Lia ZifyN ZifyNat Permutation.
From Verif Require Import PyBase PyStr Lib_Model D2Huff_Model D2Huff_Dict Prop_D2Huff D2Store_Model D2Store_Proofs Prop_D2Store D2Wire_Model D2Wire_Proofs D2Wire_Frame Prop_D2Wire
  D2Code_Model D2Code_Sets D2Code_Store D2Code_Exec D2Code_Round Prop_D2Code D2Code_Bytes Prop_D2Limits Prop_D2Hostile D2State_Model D2State_Proofs.
Import ListNotations.
Open Scope Z_scope.
Open Scope py_scope.

(** ** C68: sessions with any peer *)

Lemma receive_one_any h ref k blob k' r : winv k -> receive_one h ref k blob = (k', r) -> winv k' /\ k_cfg k' = k_cfg k /\
  match r with
  | Ok _ => True
  | Err e => (from_wire (c_width (k_cfg k)) h blob = Err e \/ raised_by_peer e) /\
      s_lru (k_store k') = s_lru (k_store k) /\ s_static (k_store k') = s_static (k_store k) /\
      forall id, (forall ops, from_wire (c_width (k_cfg k)) h blob <> Ok (id, ops)) -> gget (k_groups k') id = gget (k_groups k) id
  end.
Proof.
  intros W E. unfold receive_one in E. destruct (from_wire _ h blob) as [[gid ops]|e] eqn:Ef; [|injection E as <- <-; split; [exact W|]; split; [reflexivity|]; auto].
  assert (W' : winv (mk_code (k_cfg k) (k_store k) (find_or_make (k_groups k) gid))) by (destruct W as [W1 W2 W3]; split; [exact W1|exact W2|now apply gall_find]).
  destruct (execute_any _ _ _ _ _ _ W' E) as (A1 & A2 & _ & A4). split; [exact A1|]. split; [exact A2|]. destruct r as [hd|e]; [exact I|].
  cbn [k_store k_groups] in A4. destruct A4 as (B1 & B2 & B3 & B4). split; [now right|]. split; [exact B2|]. split; [exact B3|].
  intros id Hn. assert (id <> gid) by (intros ->; now apply (Hn ops)). rewrite B4 by assumption. now apply gget_find_ne.
Qed.

Lemma receive_any h : forall msgs k k' outs, winv k -> receive h k msgs = (k', outs) -> winv k' /\ k_cfg k' = k_cfg k.
Proof.
  induction msgs as [|[blob ref] r IH]; intros k k' outs W E; cbn [receive] in E; [injection E as <- <-; auto|].
  destruct (receive_one h ref k blob) as [k1 o] eqn:E1. destruct (receive h k1 r) as [k2 os] eqn:E2. injection E as <- <-.
  destruct (receive_one_any _ _ _ _ _ _ W E1) as (A1 & A2 & _). destruct (IH _ _ _ A1 E2) as [B1 B2]. split; [exact B1|congruence].
Qed.

(** With the shipped Huffman tables: whatever octets arrive, one after the other,
    a call returns headers or raises one of three exceptions. *)
Theorem C68_exceptions : forall t h o k0 msgs k outs, t = d2_request_table \/ t = d2_response_table -> new_huffman int_dict_order t = Ok h ->
  code_new o = Ok k0 -> Forall (fun m => is_bytes (fst m)) msgs -> receive h k0 msgs = (k, outs) ->
  forall r, In r outs -> (exists hd, r = Ok hd) \/ r = Err IndexError \/ r = Err StandardError \/ r = Err OverflowError.
Proof.
  intros t h o k0 msgs k outs Ht Eh Ek Hb. destruct (winv_new o k0 Ek) as (W & _ & _). clear Ek. revert k0 k outs W.
  induction msgs as [|[blob ref] ms IH]; intros k0 k outs W E r Hr; cbn [receive] in E; [injection E as <- <-; contradiction|].
  destruct (receive_one h ref k0 blob) as [k1 o1] eqn:E1. destruct (receive h k1 ms) as [k2 os] eqn:E2. injection E as <- <-. inversion Hb as [|? ? Hb1 Hb2]; subst.
  destruct (receive_one_any _ _ _ _ _ _ W E1) as (A1 & A2 & A3). destruct Hr as [<-|Hr]; [|exact (IH Hb2 _ _ _ A1 E2 r Hr)].
  destruct o1 as [hd|e]; [eauto|]. right. destruct A3 as ([Ew|[->|[->| ->]]] & _); auto.
  destruct (C66_hostile t h (c_width (k_cfg k0)) blob Ht Eh Hb1) as [(gid & ops & X & _)|X]; rewrite X in Ew; [discriminate|]. injection Ew as <-. auto.
Qed.
Print Assumptions C68_exceptions.

(** The table keeps within its limits, exceptions or not. *)
Theorem C68_limits : forall h o k0 msgs k outs, code_new o = Ok k0 -> receive h k0 msgs = (k, outs) ->
  Z.of_nat (length (held k)) <= entry_limit o /\ (o_refcnt_vals o = false -> value_octets k <= octet_limit o).
Proof.
  intros h o k0 msgs k outs Ek E. destruct (winv_new o k0 Ek) as (W & Ec & _). destruct (receive_any _ _ _ _ _ W E) as [[_ (G & T) _] Ec'].
  assert (C : k_cfg k = config o) by congruence. destruct T as [T1 _ _ T4 T5]. destruct T1 as [_ _ _ _ T1]. rewrite C in T1, T4, T5. split.
  - unfold held. rewrite map_length. unfold ring_len in T1. etransitivity; [exact T1|]. unfold entry_limit. destruct o as [mb [me|] [] [] ha im rc oe fe]; cbn -[Z.max]; lia.
  - intros Hr. assert (Er : c_refcnt (config o) = false) by (destruct o as [mb [me|] [] [] ha im rc oe fe]; exact Hr). rewrite Er in T4.
    assert (Em : octet_limit o = Z.max 0 (c_max_byte_size (config o))) by (destruct o as [[mb|] [me|] [] [] ha im rc oe fe]; reflexivity). rewrite Em.
    enough (Ev : value_octets k = l_bytes (s_lru (k_store k))) by (now rewrite Ev). rewrite T4. unfold value_octets, held, ringkv. clear.
    induction (l_ring (s_lru (k_store k))) as [|e r IH]; [reflexivity|]. unfold sum, vsum in *. cbn [map fold_right fst snd] in *. rewrite IH. reflexivity.
Qed.
Print Assumptions C68_limits.

(** A message that raises changes neither the table nor any group but its own. *)
Theorem C68_exception_confined : forall h o k0 msgs k outs ref blob k' e, code_new o = Ok k0 -> receive h k0 msgs = (k, outs) ->
  receive_one h ref k blob = (k', Err e) ->
  l_ring (s_lru (k_store k')) = l_ring (s_lru (k_store k)) /\
  forall id, (forall ops, from_wire (c_width (k_cfg k)) h blob <> Ok (id, ops)) -> gget (k_groups k') id = gget (k_groups k) id.
Proof.
  intros h o k0 msgs k outs ref blob k' e Ek E E1. destruct (winv_new o k0 Ek) as (W & Ec & _). destruct (receive_any _ _ _ _ _ W E) as [W' _].
  destruct (receive_one_any _ _ _ _ _ _ W' E1) as (_ & _ & _ & B2 & _ & B4). split; [now rewrite B2|exact B4].
Qed.
Print Assumptions C68_exception_confined.

(** This is the decompressor of C24 and C28, observed more closely. *)
Theorem C68_same_decompressor : forall h ref k blob,
  real_ops_execute h ref k blob = match receive_one h ref k blob with (k', Ok hd) => Ok (k', hd) | (_, Err e) => Err e end.
Proof. exact receive_one_agree. Qed.
Print Assumptions C68_same_decompressor.

(** ** C69: how long a message keeps a decompressor busy *)

(** What an index of a message stands for. *)
Definition stands_for (k : code) (i q : Z) : Prop := if c_from_end (k_cfg k) then lru_to_hg (k_store k) i = Ok q else q = i.
(** How often the loop bodies of an operation are executed. *)
Definition steps (k : code) (o : op) (n : Z) : Prop :=
  match o with
  | OTrang _ i st => exists a b, stands_for k st a /\ stands_for k i b /\ n = Z.max 0 (b + 1 - a)
  | _ => n = 1
  end.

Lemma stands_low k i q : winv k -> 0 <= i -> stands_for k i q -> - i <= q < Z.max 65535 (i + 1).
Proof.
  intros [W1 (G & T) _] Hi H. unfold stands_for in H. destruct (c_from_end (k_cfg k)); [|lia]. pose proof (ti_sinv _ _ _ T) as Hs. pose proof Hs as [(S1 & S2 & S3) S4 _ _ _].
  unfold lru_to_hg in H. rewrite S2 in H. pose proof S4 as [_ _ HL _]. pose proof W1 as [C1 C2 C3]. assert (0 <= ring_len (s_lru (k_store k))) by (unfold ring_len; lia).
  destruct (Z.ltb_spec i (ring_len (s_lru (k_store k)))); [|assert (q = 65 - 1 - (i - ring_len (s_lru (k_store k)))) by congruence; lia].
  destruct (dq_get _ _) as [e|] eqn:Ed; [|discriminate]. cbn [bind] in H. injection H as <-.
  assert (Hl : live (k_store k) (snd e)). { right. apply in_map. unfold dq_get in Ed. cbv zeta in Ed. destruct (_ && _); [|discriminate]. destruct (nth_error _ _) eqn:En; [|discriminate]. injection Ed as <-. now apply nth_error_In in En. }
  destruct Hl as [Hl|Hl].
  - rewrite S2 in Hl. lia.
  - apply in_map_iff in Hl as (x & Ex & Hin). apply In_nth_error in Hin as (n & Hj). pose proof (linv_range 65 (c_max_index (k_cfg k)) ltac:(lia) _ _ _ S4 Hj). lia.
Qed.

(** With indices of one or two octets an operation takes at most 131072 steps. *)
Theorem C69_bounded : forall t h o k0 msgs k outs blob gid ops, t = d2_request_table \/ t = d2_response_table -> new_huffman int_dict_order t = Ok h ->
  o_varint o = false -> code_new o = Ok k0 -> receive h k0 msgs = (k, outs) -> is_bytes blob ->
  from_wire (c_width (k_cfg k)) h blob = Ok (gid, ops) ->
  (length ops <= 8 * length blob)%nat /\ forall x n, In x ops -> steps k x n -> n <= 131072.
Proof.
  intros t h o k0 msgs k outs blob gid ops Ht Eh Hv Ek E Hb Ef. destruct (winv_new o k0 Ek) as (W & Ec & _). destruct (receive_any _ _ _ _ _ W E) as [W' Ec'].
  assert (C : k_cfg k = config o) by congruence.
  destruct (C66_hostile t h (c_width (k_cfg k)) blob Ht Eh Hb) as [(gid' & ops' & X & _ & HL & Hx)|X]; rewrite Ef in X; [|discriminate]. injection X as <- <-.
  split; [lia|]. intros x n Hin Hs. specialize (Hx x Hin). assert (F : forall i, index_fits (c_width (k_cfg k)) i -> 0 <= i < 65536).
  { intros i. rewrite C. unfold index_fits. change (2 ^ 8) with 256. change (2 ^ 16) with 65536. destruct o as [mb [me|] [] vi ha im rc oe fe]; cbn in Hv; subst vi; cbn; lia. }
  destruct x as [e i|e i st|e i v|e kk v]; cbn [steps] in Hs; try lia. destruct Hs as (a & b & Ha & Hb' & ->). destruct Hx as [Hi Hst]. apply F in Hi, Hst.
  pose proof (stands_low k i b W' ltac:(lia) Hb'). pose proof (stands_low k st a W' ltac:(lia) Ha). lia.
Qed.
Print Assumptions C69_bounded.

(** With variable-length indices, the default, a message of 22 octets takes
    2^60 steps, whatever happened before. *)
Theorem C69_bounded_refuted : forall h o k0 msgs k outs, coder h -> o_varint o = true -> code_new o = Ok k0 -> receive h k0 msgs = (k, outs) ->
  exists blob ops x n, length blob = 22%nat /\ is_bytes blob /\ from_wire (c_width (k_cfg k)) h blob = Ok (1%N, ops) /\ In x ops /\ steps k x n /\ 2 ^ 60 <= n.
Proof.
  intros h o k0 msgs k outs Hh Hv Ek E. destruct (winv_new o k0 Ek) as (W & Ec & _). destruct (receive_any _ _ _ _ _ W E) as [W' Ec'].
  assert (C : k_cfg k = config o) by congruence. assert (Cw : c_width (k_cfg k) = VarInt) by (rewrite C; destruct o as [mb [me|] [] vi ha im rc oe fe]; cbn in Hv; subst vi; reflexivity).
  rewrite Cw. clear C Cw Ec Ec' E Ek Hv W. pose proof (stands_low k) as L. unfold steps, stands_for in *. destruct (c_from_end (k_cfg k)) eqn:Ef.
  - exists [0; 13; 8; 1; 128; 0; 255; 255; 1; 32; 15; 158; 255; 255; 255; 255; 255; 255; 255; 255; 255; 16]%N, [OTrang false 0 2305843009213693952], (OTrang false 0 2305843009213693952).
    assert (X : exists a b, lru_to_hg (k_store k) 2305843009213693952 = Ok a /\ lru_to_hg (k_store k) 0 = Ok b /\ a <= 65600 - 2305843009213693952).
    { pose proof W' as [W1 (G & T) _]. pose proof (ti_sinv _ _ _ T) as [(S1 & S2 & S3) S4 _ _ _]. destruct W1 as [C1 C2 C3]. pose proof S4 as [_ _ HL _].
      destruct (lru_to_hg_ok 65 (c_max_index (k_cfg k)) (k_store k) 0 ltac:(lia) S4 (eq_sym S2)) as (b & Eb & _).
      { unfold is_end. rewrite S2. unfold ring_len. lia. }
      unfold lru_to_hg at 1. destruct (Z.ltb_spec 2305843009213693952 (ring_len (s_lru (k_store k)))); [lia|]. eexists. exists b. split; [reflexivity|]. split; [exact Eb|]. rewrite S2. lia. }
    destruct X as (a & b & Ea & Eb & Ha). exists (Z.max 0 (b + 1 - a)). split; [reflexivity|]. split; [repeat constructor|]. split; [vm_compute; reflexivity|]. split; [now left|].
    split; [exists a, b; auto|]. pose proof (L 0 b W' ltac:(lia) Eb). change (2 ^ 60) with 1152921504606846976. lia.
  - exists [0; 13; 8; 1; 128; 0; 255; 255; 1; 32; 249; 239; 255; 255; 255; 255; 255; 255; 255; 255; 241; 0]%N, [OTrang false 2305843009213693952 0], (OTrang false 2305843009213693952 0), 2305843009213693953.
    split; [reflexivity|]. split; [repeat constructor|]. split; [vm_compute; reflexivity|]. split; [now left|]. split; [exists 0, 2305843009213693952; auto|]. change (2 ^ 60) with 1152921504606846976. lia.
Qed.
Print Assumptions C69_bounded_refuted.

(** The steps are the executions of the loop body: this many indices are
    toggled, one by one. *)
Theorem C69_steps : forall k e i st n, steps k (OTrang e i st) n -> exists a b, stands_for k st a /\ stands_for k i b /\ n = Z.of_nat (length (xrange a (b + 1))).
Proof.
  intros k e i st n (a & b & Ha & Hb & ->). exists a, b. split; [exact Ha|]. split; [exact Hb|]. unfold xrange. rewrite map_length, seq_length. lia.
Qed.
Print Assumptions C69_steps.

(** ** C70: a message that blocks a group *)

(** The order in which a set is iterated leaves nothing out. *)
Definition complete (ref : zset -> list Z) : Prop := forall z x, In x z -> In x (ref z).

(** The messages of a group refer to entries that exist when they arrive; other
    messages may be anything. *)
Fixpoint sensible (h : huffman) (gid : N) (k : code) (msgs : list (str * (zset -> list Z))) : Prop :=
  match msgs with
  | [] => True
  | (blob, ref) :: r =>
      complete ref /\
      (forall ops, from_wire (c_width (k_cfg k)) h blob = Ok (gid, ops) -> Forall (op_names k) ops) /\
      sensible h gid (fst (receive_one h ref k blob)) r
  end.
(** Every message of the group raises. *)
Fixpoint blocked (h : huffman) (gid : N) (k : code) (msgs : list (str * (zset -> list Z))) : Prop :=
  match msgs with
  | [] => True
  | (blob, ref) :: r =>
      (forall ops, from_wire (c_width (k_cfg k)) h blob = Ok (gid, ops) -> exists e, snd (receive_one h ref k blob) = Err e) /\
      blocked h gid (fst (receive_one h ref k blob)) r
  end.

Lemma poisoned_blocked h gid p : forall msgs k, winv k -> dead (k_cfg k) p -> has (k_groups k) gid p -> sensible h gid k msgs -> blocked h gid k msgs.
Proof.
  induction msgs as [|[blob ref] r IH]; intros k W Hp H S; [exact I|]. destruct S as (S1 & S2 & S3). cbn [blocked].
  destruct (receive_one h ref k blob) as [k' o] eqn:E. cbn [fst snd] in *. destruct (receive_one_any _ _ _ _ _ _ W E) as (W' & Ec & _).
  assert (X : (forall ops, from_wire (c_width (k_cfg k)) h blob = Ok (gid, ops) -> exists e, o = Err e) /\ has (k_groups k') gid p).
  { unfold receive_one in E. destruct (from_wire (c_width (k_cfg k)) h blob) as [[g ops]|e] eqn:Ef; [|injection E as <- <-; split; [discriminate|exact H]].
    assert (W2 : winv (mk_code (k_cfg k) (k_store k) (find_or_make (k_groups k) g))) by (destruct W as [W1 W2 W3]; split; [exact W1|exact W2|now apply gall_find]).
    destruct (N.eq_dec g gid) as [->|Hn].
    - assert (Ek : find_or_make (k_groups k) gid = k_groups k) by (destruct H as (z & Ez & _); unfold find_or_make; now rewrite Ez). rewrite Ek in *.
      destruct (execute_poisoned ref (mk_code (k_cfg k) (k_store k) (k_groups k)) ops gid p k' o W2 S1 Hp H) as [A B]; [|exact E|split; [auto|exact B]].
      apply (names_live (mk_code (k_cfg k) (k_store k) (k_groups k))); [exact W2|]. exact (S2 ops eq_refl).
    - split; [intros ops' Z; congruence|]. destruct (execute_any _ _ _ _ _ _ W2 E) as (_ & _ & A & _). apply A; [congruence|exact Hp|].
      destruct H as (z & Ez & Hz). exists z. split; [|exact Hz]. cbn [k_groups]. rewrite gget_find_ne by congruence. exact Ez. }
  split; [apply X|]. apply IH; [exact W'|now rewrite Ec|apply X|exact S3].
Qed.

Definition wild (w : iwidth) : Z := match w with Int8 => 255 | Int16 => 65535 | VarInt => 1048576 end.
Definition bad_message (w : iwidth) : instructions := [((Toggl, false), [OToggl false (wild w)])].

Lemma bad_valid w : valid w (bad_message w).
Proof. intros c ops [H|[]] o Ho. injection H as <- <-. destruct Ho as [<-|[]]. split; [reflexivity|]. unfold index_fits. destruct w; cbn; lia. Qed.

Lemma bad_octets h w gid : coder h -> (gid < 256)%N -> exists blob, is_bytes blob /\ (length blob <= 16)%nat /\ from_wire w h blob = Ok (gid, [OToggl false (wild w)]).
Proof.
  intros Hh Hg. destruct (C21_serialised h w (bad_message w) gid Hh (bad_valid w) Hg) as (blob & E & Hb & R). exists blob. split; [exact Hb|].
  destruct (coder_good h Hh) as (ws & G & He). destruct (to_wire_ok h ws G He w (bad_message w) gid (valid_kind w _ (bad_valid w)) Hg) as (x & Hx & E' & Z).
  match type of E' with _ = Ok ?B => assert (Eb : blob = B) by congruence end.
  assert (Lp : (length (payload ws w (bad_message w)) <= 7)%nat) by (destruct w; vm_compute; lia).
  rewrite Z in Eb by (unfold lenN; lia). assert (L : (length blob <= 16)%nat).
  { rewrite Eb, app_length, hdr_length, app_length. cbn [length]. lia. }
  split; [exact L|]. apply R. lia.
Qed.

Lemma wild_dead k q : winv k -> stands_for k (wild (c_width (k_cfg k))) q -> dead (k_cfg k) q.
Proof.
  intros [W1 (G & T) _] H. pose proof (ti_sinv _ _ _ T) as [(S1 & S2 & S3) S4 _ _ S5]. destruct W1 as [C1 C2 C3]. pose proof S4 as [_ _ HL _]. unfold stands_for in H.
  destruct (c_from_end (k_cfg k)).
  - unfold lru_to_hg in H. assert (Lw : ring_len (s_lru (k_store k)) + 65 <= wild (c_width (k_cfg k))) by (destruct (c_width (k_cfg k)); cbn [wild]; lia).
    destruct (Z.ltb_spec (wild (c_width (k_cfg k))) (ring_len (s_lru (k_store k)))); [lia|]. rewrite S2 in H.
    left. assert (q = 65 - 1 - (wild (c_width (k_cfg k)) - ring_len (s_lru (k_store k)))) by congruence. lia.
  - subst q. right. destruct (c_width (k_cfg k)); cbn [wild]; lia.
Qed.
Lemma wild_stands k : winv k -> exists q, stands_for k (wild (c_width (k_cfg k))) q.
Proof.
  intros [W1 (G & T) _]. pose proof (ti_sinv _ _ _ T) as [(S1 & S2 & S3) S4 _ _ S5]. destruct W1 as [C1 C2 C3]. pose proof S4 as [_ _ HL _]. unfold stands_for.
  destruct (c_from_end (k_cfg k)); [|eauto]. unfold lru_to_hg. assert (Lw : ring_len (s_lru (k_store k)) + 65 <= wild (c_width (k_cfg k))) by (destruct (c_width (k_cfg k)); cbn [wild]; lia).
  destruct (Z.ltb_spec (wild (c_width (k_cfg k))) (ring_len (s_lru (k_store k)))); [lia|]. eauto.
Qed.

Lemma kinv_winv o k : kinv k -> used o k -> winv k.
Proof.
  intros [K1 K2 K3] H. apply used_inv in H as [_ T]. split; [exact K1|exact T|]. eapply gall_impl; [|exact K3]. intros; exact I.
Qed.
Lemma session_used h o c d : coder h -> session h o c d -> used o d.
Proof.
  intros Hh H. induction H as [c d E1 E2|c d m c' d' blob out H IH Hm E1 Hl E2]; [now apply used_new|].
  unfold real_ops_execute in E2. destruct (from_wire _ _ _) as [[gid ops]|]; [|discriminate]. cbn [bind] in E2. cbv zeta in E2. rewrite execute_find in E2.
  assert (Ek : mk_code (k_cfg d) (k_store d) (k_groups d) = d) by (destruct d; reflexivity). rewrite Ek in E2. eapply used_receive; eauto.
Qed.

(** At any moment of a session with any options, for any group: one message of at
    most sixteen octets raises, and from then on the decompressor refuses every
    message of that group that refers to existing entries, and in particular the
    next message of the compressor, whatever it is. *)
Theorem C70_blocked : forall h o c d gid, coder h -> session h o c d -> (gid < 256)%N ->
  exists bad, is_bytes bad /\ (length bad <= 16)%nat /\
  forall ref, complete ref -> exists d' e, receive_one h ref d bad = (d', Err e) /\
    (forall msgs, sensible h gid d' msgs -> blocked h gid d' msgs) /\
    (forall m c' blob, message_ok m -> msg_group m = gid -> compress_group h (msg_sender m) c (msg_headers m) (msg_group m) = Ok (c', blob) -> (lenN blob <= 65536)%N ->
       exists d2 e2, receive_one h (msg_receiver m) d' blob = (d2, Err e2)).
Proof.
  intros h o c d gid Hh H Hg. destruct (session_inv h o c d Hh H) as [-> K]. pose proof (kinv_winv o c K (session_used h o c c Hh H)) as W.
  destruct (bad_octets h (c_width (k_cfg c)) gid Hh Hg) as (bad & Hb & L & Ew). exists bad. split; [exact Hb|]. split; [exact L|]. intros ref Hr.
  destruct (wild_stands c W) as (q & Hq). pose proof (wild_dead c q W Hq) as Hd. destruct (receive_one h ref c bad) as [d' r] eqn:E. unfold receive_one in E. rewrite Ew in E.
  pose proof W as [W1 (G & T) W3].
  assert (W2 : winv (mk_code (k_cfg c) (k_store c) (find_or_make (k_groups c) gid))) by (split; [exact W1|eauto|now apply gall_find]).
  pose proof (execute_any _ _ _ _ _ _ W2 E) as (A1 & A2 & _ & _). cbn [k_cfg] in A2.
  assert (Es : lru_to_hg_ops (k_cfg c) (k_store c) [OToggl false (wild (c_width (k_cfg c)))] = Ok [OToggl false q]).
  { unfold lru_to_hg_ops, stands_for in *. destruct (c_from_end (k_cfg c)); [|now subst q]. cbn [mapm map_index]. now rewrite Hq. }
  unfold execute_ops_st in E. cbn [k_cfg k_store k_groups] in E. rewrite Es, find_or_make_idem in E. cbn [exec_loop_st exec_op toggle x_heap x_st x_et x_headers x_later] in E.
  change (ztoggle q []) with [q] in E. unfold y_set in E. cbn [y_orphan y_groups y_store] in E. unfold y_cur in E. cbn [y_orphan y_groups] in E.
  fold (cur_of c gid) in E. destruct (cur_of_ok c gid K) as [Cs Cl]. change (zsymdiff (cur_of c gid) [q]) with (ztoggle q (cur_of c gid)) in E.
  assert (Nq : ~ In q (cur_of c gid)). { intros C. rewrite Forall_forall in Cl. apply Cl in C. apply (live_range _ _ _ W1 (ti_sinv _ _ _ T)) in C. destruct Hd; lia. }
  assert (Iq : In q (ztoggle q (cur_of c gid))) by (apply ztoggle_In; now right).
  assert (Ir : In q (zsymdiff [] (ztoggle q (cur_of c gid)))) by (apply zsymdiff_In; [now apply zsorted_NoDup, ztoggle_sorted|]; right; split; [intros []|exact Iq]).
  assert (Est : mk_storage (s_heap (k_store c)) (s_static (k_store c)) (s_lru (k_store c)) = k_store c) by (destruct (k_store c); reflexivity). rewrite Est in E.
  destruct (append_refs_dead (k_cfg c) (k_store c) q W1 (ti_sinv _ _ _ T) Hd (ref (zsymdiff [] (ztoggle q (cur_of c gid)))) []) as (e & Ea); [now apply Hr|].
  rewrite Ea in E. cbn [bind] in E. injection E as <- <-. eexists. exists e. split; [reflexivity|].
  set (d' := mk_code (k_cfg c) (k_store c) (gset (find_or_make (k_groups c) gid) gid (ztoggle q (cur_of c gid)))) in *.
  assert (Hh' : has (k_groups d') gid q) by (eexists; split; [apply gget_gset|exact Iq]). split.
  - intros msgs S. apply (poisoned_blocked h gid q); auto.
  - intros m c' blob Hm Egm Ec Hl. subst gid. pose proof Hm as (Hbm & _ & Ho & Hp).
    destruct (make_ok (msg_sender m) c (msg_headers m) (msg_group m) K Ho Hbm) as (c2 & is & Em & _ & Ecc & V & _ & Hn & _).
    unfold compress_group in Ec. rewrite Em in Ec. cbn [bind] in Ec. rewrite Ecc in Ec. destruct (C21_serialised h (c_width (k_cfg c)) is (msg_group m) Hh V Hg) as (blob2 & Ew2 & B & R).
    rewrite Ew2 in Ec. cbn [bind] in Ec. injection Ec as <- <-. destruct (receive_one h (msg_receiver m) d' blob2) as [d2 r] eqn:E2. unfold receive_one in E2. cbn [k_cfg d'] in E2.
    rewrite (R Hl) in E2. assert (Ef : find_or_make (k_groups d') (msg_group m) = k_groups d') by (unfold find_or_make; destruct Hh' as (z & Z1 & _); now rewrite Z1).
    change (k_groups d') with (gset (find_or_make (k_groups c) (msg_group m)) (msg_group m) (ztoggle q (cur_of c (msg_group m)))) in Ef at 1. cbn [k_store k_groups d'] in E2. rewrite Ef in E2.
    destruct (execute_poisoned (msg_receiver m) d' (flat_map snd is) (msg_group m) q d2 r) as [(e2 & ->) _]; auto.
    + intros z x Hx. eapply Permutation_in; [symmetry; apply Hp|exact Hx].
    + exists d2, e2. reflexivity.
Qed.
Print Assumptions C70_blocked.

(** ** Concrete cases *)

(** A new decompressor with the default options is given: the last static entry,
    eight octets, a range beyond 2^64, an entry that cannot exist, and the last static
    entry once more, in the group that is now blocked and in another one. *)
Definition hostile_session : list (str * (zset -> list Z)) :=
  map (fun b => (b, fun z => z))
  [ [0; 2; 8; 1; 128; 0; 255; 255; 1; 16; 0];
    [0; 2; 8; 1; 128; 0; 255; 255];
    [0; 13; 8; 1; 128; 0; 255; 255; 1; 32; 249; 239; 255; 255; 255; 255; 255; 255; 255; 255; 255; 16];
    [0; 5; 8; 1; 128; 0; 255; 255; 1; 0; 249; 239; 255; 243];
    [0; 2; 8; 1; 128; 0; 255; 255; 1; 16; 0];
    [0; 2; 8; 1; 128; 0; 255; 255; 2; 16; 0] ]%N.
Example C68_nontrivial : Forall (fun m => is_bytes (fst m)) hostile_session /\
  match code_new default_options, new_huffman int_dict_order d2_request_table with
  | Ok k, Ok h => snd (receive h k hostile_session) =
      [Ok [(lit ":path", lit "/")]; Err StandardError; Err OverflowError; Err IndexError; Err IndexError; Ok [(lit ":path", lit "/")]]
  | _, _ => False
  end.
Proof.
  split; [|vm_compute; reflexivity]. unfold hostile_session. cbn [map]. repeat (apply Forall_cons; [cbn [fst]; repeat constructor|]). apply Forall_nil.
Qed.

(** The range of the fourth message of C69: from the table's end to an entry that
    would lie 2^61 entries before it. *)
Example C69_nontrivial : match code_new default_options with
  | Ok k => steps k (OTrang false 0 2305843009213693952) 2305843009213693953 /\ steps k (OTrang false 3 9) 7
  | Err _ => False
  end.
Proof. vm_compute. split; repeat eexists. Qed.

(** The first message of a session, given to a new decompressor and to one that has
    seen the bad message before. *)
Definition first_call : message := mk_message [(lit ":method", lit "get"); (lit ":path", lit "/a"); (lit "x-1", lit "v")] 1 backwards (@rev _).
Example C70_nontrivial : message_ok first_call /\
  match code_new default_options, new_huffman int_dict_order (with_symbols small_counts) with
  | Ok k, Ok h =>
      match compress_group h (msg_sender first_call) k (msg_headers first_call) 1 with
      | Ok (_, blob) =>
          let bad := [0; 5; 8; 1; 128; 0; 255; 255; 1; 0; 249; 239; 255; 243]%N in
          snd (receive h k [(blob, @rev Z)]) = [Ok [(lit "x-1", lit "v"); (lit ":path", lit "/a"); (lit ":method", lit "get")]] /\
          snd (receive h k [(bad, @rev Z); (blob, @rev Z)]) = [Err IndexError; Err IndexError]
      | Err _ => False
      end
  | _, _ => False
  end.
Proof.
  split; [|vm_compute; split; reflexivity]. split; [|split; [reflexivity|split; [exact backwards_ok|intros; symmetry; apply Permutation_rev]]].
  intros k v H. cbn [In first_call msg_headers] in H. repeat (destruct H as [H|H]; [injection H as <- <-; split; repeat constructor|]). contradiction.
Qed.
