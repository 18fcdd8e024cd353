(** * Properties C19, C20, C48: delta2's Huffman coder. *)
From Coq Require Import List NArith ZArith QArith Bool Arith Lia ZifyN ZifyNat Permutation Sorted.
From Verif Require Import PyBase NBits Bits BB_Model BB_Spec BB_Proofs Prop_BB BB_Read HDHuff_Opt D2Huff_Model D2Huff_Proofs D2Huff_Dict.
Import ListNotations.
Open Scope N_scope.
Open Scope py_scope.

(** ** Reading and writing positions of a bucket *)

Lemma at_end_rd ops a b : Forall mop_ok ops -> bb_run bb_new ops = Ok (a, b) -> at_end b -> exists A, rd b A [].
Proof.
  intros HF Hrun Hend. destruct (fixed_rep ops a b HF Hrun Hend) as (q & Hr & Hq). exists (q_bits q).
  unfold rd. rewrite app_nil_r, <- Hq. destruct q. exact Hr.
Qed.

Lemma writes_rd ops : Forall mop_ok ops -> Forall m_is_write ops -> forall b A R, rd b A R ->
  exists a b' X, bb_run b ops = Ok (a, b') /\ rd b' A (R ++ X).
Proof.
  induction 1 as [|o ops Ho HF IH]; intros Hw b A R Hb.
  - exists [], b, []. rewrite app_nil_r. auto.
  - inversion Hw; subst. cbn [bb_run]. destruct o as [s n| | |n]; cbn [m_is_write] in *; try tauto.
    + destruct Ho as [Ho1 Ho2]. destruct (rd_store b A R s n Hb Ho1 ltac:(unfold bytes_for; lia)) as (b1 & E1 & H1'). rewrite E1. cbn [bind].
      destruct (IH H2 b1 A _ H1') as (a & b' & X & E & H). rewrite E. cbn [bind]. do 3 eexists. split; [reflexivity|]. rewrite <- app_assoc in H. exact H.
    + pose proof (rd_pad b A R Hb) as H1'. destruct (IH H2 _ A _ H1') as (a & b' & X & E & H). rewrite E. cbn [bind]. do 3 eexists. split; [reflexivity|]. rewrite <- app_assoc in H. exact H.
Qed.

Definition read_pos (b : bb) : nat := (8 * bb_ibyte b + bb_iboff b)%nat.

(** ** C19: prefix-free and lossless *)

(** In which order a dictionary with keys up to 32 is iterated is not known,
    except that every key comes up once. *)
Definition iterates (order : list nat -> list nat) : Prop :=
  forall ks, NoDup ks -> Forall (fun k => (k <= 32)%nat) ks -> Permutation (order ks) ks.

Lemma cpython_iterates : iterates int_dict_order.
Proof.
  intros ks Hn Hk. apply int_dict_order_perm; [exact Hn| |].
  - eapply Forall_impl; [|exact Hk]. cbn. intros k H. lia.
  - assert (L : (length ks <= length (seq 0 33))%nat).
    { apply NoDup_incl_length; [exact Hn|]. intros k H. rewrite Forall_forall in Hk. specialize (Hk k H). apply in_seq. lia. }
    rewrite seq_length in L. lia.
Qed.

Lemma depth_keys_small t : (cdepth t <= 32)%nat -> NoDup (depth_keys t) /\ Forall (fun k => (k <= 32)%nat) (depth_keys t).
Proof.
  intros H. unfold depth_keys. split; [apply NoDup_filter, seq_NoDup|]. apply Forall_forall. intros k Hk. apply filter_In in Hk. destruct Hk as [Hk _].
  apply in_seq in Hk. lia.
Qed.

Lemma iterates_good order table h : iterates order -> new_huffman order table = Ok h ->
  exists ws, good h ws /\ Forall (fun w => (length w <= 32)%nat) ws /\ (forall s, In s (map fst table) -> s < lenN ws).
Proof.
  intros Ho. apply new_huffman_good. intros t Et. destruct (build_loop_inv _ _ _ _ Et) as (_ & _ & H).
  destruct (depth_keys_small t H) as [H1 H2]. now apply Ho.
Qed.

(** The bits of a code word given as octets and a number of bits. *)
Definition word_bits (w : list N * nat) : list bool := firstn (snd w) (bits_of_bytes (fst w)).

Theorem C19_prefix_free : forall order table h, iterates order -> new_huffman order table = Ok h ->
  forall i j wi wj, nth_error (h_codes h) i = Some wi -> nth_error (h_codes h) j = Some wj -> i <> j ->
  ~ exists rest, word_bits wj = word_bits wi ++ rest.
Proof.
  intros order table h Ho H i j wi wj Hi Hj Hij (rest & E). destruct (iterates_good order table h Ho H) as (ws & G & _).
  rewrite (g_codes _ _ G), nth_error_map in Hi, Hj.
  destruct (nth_error ws i) as [a|] eqn:Ea; [|discriminate]. destruct (nth_error ws j) as [b|] eqn:Eb; [|discriminate].
  injection Hi as <-. injection Hj as <-. unfold word_bits, enc in E. cbn [fst snd] in E. rewrite !firstn_bytes_of_bits in E.
  apply (g_free _ _ G i j a b Ea Eb Hij). left. now exists rest.
Qed.
Print Assumptions C19_prefix_free.

(** A string of octets, coded with the end marker and put into a bucket that is
    read up to its end, can be decoded again whatever is written after it, and
    the reader then stands where the end marker stopped. *)
Theorem C19_roundtrip : forall order table h, iterates order -> new_huffman order table = Ok h ->
  (forall c, c <= 256 -> In c (map fst table)) ->
  forall ops a b, Forall mop_ok ops -> bb_run bb_new ops = Ok (a, b) -> at_end b ->
  forall text, Forall (fun c => c < 256) text ->
  exists octets nbits b1, huff_encode h text true = Ok (octets, nbits) /\ bb_store b octets nbits = Ok b1 /\
  forall later, Forall mop_ok later -> Forall m_is_write later ->
  exists a2 b2 b3, bb_run b1 later = Ok (a2, b2) /\ decode_from_bb h b2 true 0 = Ok (text, b3) /\ read_pos b3 = bb_num b1.
Proof.
  intros order table h Ho H Hc ops a b HF Hrun Hend text Ht. destruct (iterates_good order table h Ho H) as (ws & G & _ & Hlt).
  destruct (at_end_rd ops a b HF Hrun Hend) as (A & HA).
  assert (He : 256 < lenN ws) by (apply Hlt, Hc; lia).
  assert (Ht1 : Forall (fun c => c < lenN ws) text) by (eapply Forall_impl; [|exact Ht]; cbn; intros c Hx; lia).
  assert (Ht2 : Forall (fun c => c < lenN ws /\ c <> 256) text) by (eapply Forall_impl; [|exact Ht]; cbn; intros c Hx; lia).
  set (W := bits_for ws text ++ word_of ws 256).
  destruct (rd_store_bits b A [] W HA) as (b1 & E1 & H1). exists (bytes_of_bits W), (length W), b1. split; [now apply encode_ok|]. split; [exact E1|].
  intros later HF2 Hw. destruct (writes_rd later HF2 Hw b1 A _ H1) as (a2 & b2 & X & E2 & H2). cbn [app] in H2.
  unfold W in H2. rewrite <- app_assoc in H2. destruct (decode_eof_ok h ws text G He Ht2 b2 A X H2) as (b3 & E3 & H3).
  exists a2, b2, b3. split; [exact E2|]. split; [exact E3|]. unfold read_pos. rewrite (rd_pos _ _ _ H3), (rd_num _ _ _ H1).
  cbn [app]. unfold W. now rewrite app_length.
Qed.
Print Assumptions C19_roundtrip.

(** With a number of bits instead of an end marker: the string comes back and
    exactly these bits are used up; with both, so are the bits between the end
    marker and that number.  Without either nothing is decoded. *)
Lemma decode_loop_bits h ws : good h ws -> forall text, Forall (fun c => c < lenN ws) text ->
  forall fuel b A R n out, (length text <= fuel)%nat -> rd b A (bits_for ws text ++ R) ->
  exists b', decode_loop fuel (h_tree h) false (Some (n + length (bits_for ws text))%nat) b n out = Ok (out ++ text, b', (n + length (bits_for ws text))%nat) /\
    rd b' (A ++ bits_for ws text) R.
Proof.
  intros G. induction 1 as [|c text Hc HF IH]; intros fuel b A R n out Hf Hb.
  - cbn [bits_for flat_map length app] in *. rewrite Nat.add_0_r, !app_nil_r. exists b. split; [|exact Hb].
    destruct fuel; cbn [decode_loop]; rewrite Nat.ltb_irrefl; reflexivity.
  - cbn [length] in Hf. destruct fuel as [|f]; [lia|]. cbn [bits_for flat_map decode_loop] in *. rewrite app_length. rewrite <- app_assoc in Hb.
    pose proof (word_ne ws c (g_ne _ _ G) Hc) as Hw. fold (bits_for ws text) in *.
    match goal with |- context[(?a <? ?b)%nat] => destruct (Nat.ltb_spec a b); [|lia] end.
    destruct (walk_ok _ _ _ (word_leaf h ws c G Hc) b A _ n Hb) as (b1 & E1 & H1). rewrite E1. cbn [bind andb].
    destruct (IH f b1 (A ++ word_of ws c) R (n + length (word_of ws c))%nat (out ++ [c])) as (b2 & E2 & H2); [lia|exact H1|].
    exists b2. rewrite Nat.add_assoc, E2, <- app_assoc. split; [reflexivity|]. now rewrite <- !app_assoc in *.
Qed.
Lemma decode_loop_both h ws : good h ws -> 256 < lenN ws -> forall text, Forall (fun c => c < lenN ws /\ c <> 256) text ->
  forall fuel b A R n out limit, (length text < fuel)%nat -> (n + length (bits_for ws text ++ word_of ws 256) <= limit)%nat -> rd b A (bits_for ws text ++ word_of ws 256 ++ R) ->
  exists b', decode_loop fuel (h_tree h) true (Some limit) b n out = Ok (out ++ text, b', (n + length (bits_for ws text ++ word_of ws 256))%nat) /\
    rd b' (A ++ bits_for ws text ++ word_of ws 256) R.
Proof.
  intros G He. induction 1 as [|c text [Hc Hc'] HF IH]; intros fuel b A R n out limit Hf Hl Hb.
  - destruct fuel as [|f]; [lia|]. cbn [decode_loop bits_for flat_map app] in *. pose proof (word_ne ws 256 (g_ne _ _ G) He) as Hw.
    destruct (Nat.ltb_spec n limit); [|lia].
    destruct (walk_ok _ _ _ (word_leaf h ws 256 G He) b A R n Hb) as (b1 & E1 & H1). rewrite E1. cbn [bind andb].
    rewrite N.eqb_refl. exists b1. rewrite app_nil_r. split; [reflexivity|exact H1].
  - destruct fuel as [|f]; [lia|]. cbn [decode_loop bits_for flat_map] in *. rewrite <- app_assoc in Hb. fold (bits_for ws text) in *.
    rewrite <- app_assoc, app_length in Hl |- *. pose proof (word_ne ws c (g_ne _ _ G) Hc) as Hw. destruct (Nat.ltb_spec n limit); [|lia].
    destruct (walk_ok _ _ _ (word_leaf h ws c G Hc) b A _ n Hb) as (b1 & E1 & H1). rewrite E1. cbn [bind andb].
    destruct (N.eqb_spec c 256) as [C|_]; [congruence|].
    destruct (IH f b1 (A ++ word_of ws c) R (n + length (word_of ws c))%nat (out ++ [c]) limit) as (b2 & E2 & H2); [cbn in Hf; lia|lia|exact H1|].
    exists b2. rewrite Nat.add_assoc, E2, <- app_assoc. split; [reflexivity|]. now rewrite <- !app_assoc in *.
Qed.

Theorem C19_bit_count : forall order table h, iterates order -> new_huffman order table = Ok h ->
  (forall c, c <= 256 -> In c (map fst table)) ->
  forall ops a b, Forall mop_ok ops -> bb_run bb_new ops = Ok (a, b) -> at_end b ->
  forall text, Forall (fun c => c < 256) text -> text <> [] ->
  (exists octets nbits b1, huff_encode h text false = Ok (octets, nbits) /\ bb_store b octets nbits = Ok b1 /\
   forall later, Forall mop_ok later -> Forall m_is_write later ->
   exists a2 b2 b3, bb_run b1 later = Ok (a2, b2) /\ decode_from_bb h b2 false nbits = Ok (text, b3) /\ read_pos b3 = bb_num b1) /\
  (exists octets nbits b1, huff_encode h text true = Ok (octets, nbits) /\ bb_store b octets nbits = Ok b1 /\
   forall padding pad, is_bytes pad -> length pad = bytes_for padding -> exists b2, bb_store b1 pad padding = Ok b2 /\
   forall later, Forall mop_ok later -> Forall m_is_write later ->
   exists a3 b3 b4, bb_run b2 later = Ok (a3, b3) /\ decode_from_bb h b3 true (nbits + padding) = Ok (text, b4) /\ read_pos b4 = bb_num b2) /\
  (forall any, decode_from_bb h any false 0 = Err StandardError).
Proof.
  intros order table h Ho H Hc ops a b HF Hrun Hend text Ht Hne. destruct (iterates_good order table h Ho H) as (ws & G & _ & Hlt).
  destruct (at_end_rd ops a b HF Hrun Hend) as (A & HA).
  assert (He : 256 < lenN ws) by (apply Hlt, Hc; lia).
  assert (Ht1 : Forall (fun c => c < lenN ws) text) by (eapply Forall_impl; [|exact Ht]; cbn; intros c Hx; lia).
  assert (Ht2 : Forall (fun c => c < lenN ws /\ c <> 256) text) by (eapply Forall_impl; [|exact Ht]; cbn; intros c Hx; lia).
  pose proof (bits_for_len ws text (g_ne _ _ G) Ht1) as Hl. assert (Hl0 : (0 < length text)%nat) by (destruct text; [congruence|cbn; lia]).
  split; [|split].
  - set (W := bits_for ws text) in *.
    destruct (rd_store_bits b A [] W HA) as (b1 & E1 & H1). exists (bytes_of_bits W), (length W), b1. split; [|split; [exact E1|]].
    { unfold huff_encode, encode_to_bb. destruct (store_symbols_ok h ws text G Ht1 bb_new [] [] wr_new) as (x & Ex & Hx). rewrite Ex. cbn [bind].
      unfold bb_all. destruct (rd_out _ _ _ Hx) as [-> _]. rewrite (rd_num _ _ _ Hx). reflexivity. }
    intros later HF2 Hw. destruct (writes_rd later HF2 Hw b1 A _ H1) as (a2 & b2 & X & E2 & H2). cbn [app] in H2.
    destruct (decode_loop_bits h ws G text Ht1 (S (bb_num b2)) b2 A X 0 []) as (b3 & E3 & H3); [rewrite (rd_num _ _ _ H2), app_length; fold W; lia|exact H2|].
    exists a2, b2, b3. split; [exact E2|]. fold W in E3, H3. cbn [Nat.add app] in E3. split.
    + unfold decode_from_bb. cbn [negb andb]. destruct (Nat.eqb_spec (length W) 0); [lia|]. rewrite E3. cbn [bind negb andb]. now rewrite Nat.ltb_irrefl.
    + unfold read_pos. rewrite (rd_pos _ _ _ H3), (rd_num _ _ _ H1). cbn [app]. now rewrite app_length.
  - set (W := bits_for ws text ++ word_of ws 256) in *. assert (HW : (length (bits_for ws text) <= length W)%nat) by (unfold W; rewrite app_length; lia).
    destruct (rd_store_bits b A [] W HA) as (b1 & E1 & H1). exists (bytes_of_bits W), (length W), b1. split; [now apply encode_ok|]. split; [exact E1|].
    intros padding pad Hp Hlp. destruct (rd_store b1 A _ pad padding H1 Hp Hlp) as (b2 & E2 & H2). exists b2. split; [exact E2|].
    set (P := firstn padding (bits_of_bytes pad)) in *.
    assert (HP : length P = padding) by (unfold P; apply firstn_length_le; rewrite bits_of_bytes_length, Hlp; pose proof (Nat.div_mod padding 8); unfold bytes_for; lia).
    intros later HF2 Hw. destruct (writes_rd later HF2 Hw b2 A _ H2) as (a3 & b3 & X & E3 & H3). cbn [app] in H3.
    destruct (decode_loop_both h ws G He text Ht2 (S (bb_num b3)) b3 A (P ++ X) 0 [] (length W + padding)%nat) as (b4 & E4 & H4);
      [rewrite (rd_num _ _ _ H3), !app_length; lia|fold W; lia|unfold W in H3; now rewrite <- !app_assoc in H3|].
    fold W in E4, H4. cbn [Nat.add app] in E4. destruct (rd_get b4 _ P X H4) as (b5 & E5 & H5). rewrite HP in E5.
    assert (D : decode_from_bb h b3 true (length W + padding) = let* (out, b, total) := Ok (text, b4, length W) in
       if (total <? length W + padding)%nat then let* (_, b) := bb_get b (length W + padding - total) in Ok (out, b) else Ok (out, b)).
    { unfold decode_from_bb. cbn [negb andb]. destruct (Nat.eqb_spec (length W + padding) 0); [lia|]. now rewrite E4. }
    cbn [bind] in D. destruct (Nat.ltb_spec (length W) (length W + padding)) as [L|L].
    + replace (length W + padding - length W)%nat with padding in D by lia. rewrite E5 in D. cbn [bind] in D. exists a3, b3, b5. split; [exact E3|]. split; [exact D|].
      unfold read_pos. rewrite (rd_pos _ _ _ H5), (rd_num _ _ _ H2). cbn [app]. rewrite !app_length. lia.
    + assert (padding = 0)%nat by lia. exists a3, b3, b4. split; [exact E3|]. split; [exact D|].
      unfold read_pos. rewrite (rd_pos _ _ _ H4), (rd_num _ _ _ H2). cbn [app]. rewrite !app_length. lia.
  - reflexivity.
Qed.
Print Assumptions C19_bit_count.

(** The two tables of the program, with the order CPython 2.7 iterates in. *)
Lemma request_huffman_built : match new_huffman int_dict_order d2_request_table with Ok h => (length (h_codes h) =? 257)%nat | Err _ => false end = true.
Proof. vm_compute. reflexivity. Qed.
Lemma response_huffman_built : match new_huffman int_dict_order d2_response_table with Ok h => (length (h_codes h) =? 257)%nat | Err _ => false end = true.
Proof. vm_compute. reflexivity. Qed.
Lemma shipped_symbols t : t = d2_request_table \/ t = d2_response_table -> forall c, c <= 256 -> In c (map fst t).
Proof.
  intros Ht c Hc. replace (map fst t) with (count_up 257) by (destruct Ht as [-> | ->]; vm_compute; reflexivity).
  unfold count_up. apply in_map_iff. exists (N.to_nat c). split; [lia|]. apply in_seq. lia.
Qed.

Theorem C19_shipped_tables : forall t, t = d2_request_table \/ t = d2_response_table ->
  exists h, new_huffman int_dict_order t = Ok h /\
  forall ops a b, Forall mop_ok ops -> bb_run bb_new ops = Ok (a, b) -> at_end b ->
  forall text, Forall (fun c => c < 256) text ->
  exists octets nbits b1, huff_encode h text true = Ok (octets, nbits) /\ bb_store b octets nbits = Ok b1 /\
  forall later, Forall mop_ok later -> Forall m_is_write later ->
  exists a2 b2 b3, bb_run b1 later = Ok (a2, b2) /\ decode_from_bb h b2 true 0 = Ok (text, b3) /\ read_pos b3 = bb_num b1.
Proof.
  intros t Ht. assert (exists h, new_huffman int_dict_order t = Ok h) as (h & E).
  { destruct Ht as [-> | ->]; [pose proof request_huffman_built as B|pose proof response_huffman_built as B]; destruct (new_huffman _ _); try discriminate; eexists; reflexivity. }
  exists h. split; [exact E|]. exact (C19_roundtrip int_dict_order t h cpython_iterates E (shipped_symbols t Ht)).
Qed.
Print Assumptions C19_shipped_tables.

(** A table with 257 equally frequent symbols (codes of 8 and 9 bits); the string
    starts at bit 3 and is followed by 13 bits. *)
Definition small_counts : list N := repeat 1 257.
Example C19_nontrivial :
  (let* h := new_huffman int_dict_order (with_symbols small_counts) in
   let* (_, b) := bb_run bb_new [MStore [160] 3; MGet 3] in
   let* (o, n) := huff_encode h [2; 0; 7; 1; 1; 255] true in
   let* b1 := bb_store b o n in
   let* (_, b2) := bb_run b1 [MStore [255; 255] 13] in
   let* (s, b3) := decode_from_bb h b2 true 0 in
   Ok (s, read_pos b, n, read_pos b3, bb_num b3)) = Ok ([2; 0; 7; 1; 1; 255], 3%nat, 59%nat, 62%nat, 75%nat).
Proof. vm_compute. reflexivity. Qed.

(** The same string by its number of bits, and with the end marker and 13 bits more. *)
Example C19_bit_count_nontrivial :
  (let* h := new_huffman int_dict_order (with_symbols small_counts) in
   let* (_, b) := bb_run bb_new [MStore [160] 3; MGet 3] in
   let* (o, n) := huff_encode h [2; 0; 7; 1; 1; 255] false in
   let* b1 := bb_store b o n in
   let* (_, b2) := bb_run b1 [MStore [255; 255] 13] in
   let* (s, b3) := decode_from_bb h b2 false n in
   let* (o', n') := huff_encode h [2; 0; 7; 1; 1; 255] true in
   let* b1' := bb_store b o' n' in
   let* (_, b2') := bb_run b1' [MStore [255; 255] 13] in
   let* (s', b3') := decode_from_bb h b2' true (n' + 13) in
   Ok (s, n, read_pos b3, s', n', read_pos b3')) = Ok ([2; 0; 7; 1; 1; 255], 51%nat, 54%nat, [2; 0; 7; 1; 1; 255], 59%nat, 75%nat).
Proof. vm_compute. reflexivity. Qed.

(** ** C20: does construction always succeed? *)

(** What happens does not depend on the loop that doubles the divisor: either
    the first tree is not deeper than 32 and is used, or all 1024 divisors that
    fit a float are tried in vain. *)
Theorem C20_scaling_never_helps : forall order table, (2 <= length table)%nat ->
  exists t, build_code_tree table 1 = Ok t /\
  ((cdepth t <= 32)%nat -> build_loop 1024 table 1 = Ok t) /\
  ((32 < cdepth t)%nat -> new_huffman order table = Err OverflowError).
Proof.
  intros order table Hn. destruct (build_loop_cases 1023 table 1 Hn) as (t & E & El). exists t. split; [exact E|].
  change (S 1023) with 1024%nat in El. split; intros Hd.
  - rewrite El. destruct (Nat.leb_spec (cdepth t) 32); [reflexivity|lia].
  - unfold new_huffman. rewrite El. destruct (Nat.leb_spec (cdepth t) 32); [lia|reflexivity].
Qed.
Print Assumptions C20_scaling_never_helps.

(** Fewer than two symbols make no coder. *)
Theorem C20_too_few : forall order table, (length table < 2)%nat -> new_huffman order table = Err StandardError.
Proof.
  intros order table H. unfold new_huffman. change 1024%nat with (S 1023). cbn [build_loop]. unfold build_code_tree.
  destruct (Nat.ltb_spec (length table) 2); [reflexivity|lia].
Qed.
Print Assumptions C20_too_few.
Example C20_one_symbol : new_huffman int_dict_order [(0, 5)] = Err StandardError /\ exists h, new_huffman int_dict_order [(0, 5); (1, 1)] = Ok h.
Proof. split; [apply C20_too_few; cbn [length]; lia|vm_compute; eauto]. Qed.

(** All divisors give a tree of the same depth. *)
Theorem C20_divisor_irrelevant : forall table d d' t t', build_code_tree table d = Ok t -> build_code_tree table d' = Ok t' -> cdepth t = cdepth t'.
Proof. intros table d d' t t' E E'. pose proof (build_scaled table d d') as H. now rewrite E, E' in H. Qed.
Print Assumptions C20_divisor_irrelevant.

(** Fibonacci numbers as counts. *)
Fixpoint fibs (n : nat) (a b : N) : list N := match n with O => [] | S n' => a :: fibs n' b (a + b) end.
Definition fib_table : list (N * N) := with_symbols (fibs 35 1 1).

Theorem C20_construction_refuted : forall order, exists table, (2 <= length table)%nat /\ map fst table = count_up (length table) /\
  new_huffman order table = Err OverflowError.
Proof.
  intros order. exists fib_table. split; [vm_compute; lia|]. split; [vm_compute; reflexivity|].
  destruct (C20_scaling_never_helps order fib_table) as (t & E & _ & H); [vm_compute; lia|]. apply H.
  assert (D : match build_code_tree fib_table 1 with Ok t => cdepth t | Err _ => 0%nat end = 34%nat) by (vm_compute; reflexivity).
  rewrite E in D. rewrite D. lia.
Qed.
Print Assumptions C20_construction_refuted.

(** ** C48: which tables make a coder *)

(** The code lengths of a table, and that a list of lengths is ascending. *)
Definition ascending (l : list nat) : Prop := StronglySorted le l.

Theorem C48_built_iff_depths_iterate_ascending : forall order table t, iterates order ->
  Permutation (map fst table) (count_up (length table)) -> (2 <= length table)%nat ->
  build_code_tree table 1 = Ok t -> (cdepth t <= 32)%nat ->
  (ascending (order (depth_keys t)) -> exists h, new_huffman order table = Ok h) /\
  (~ ascending (order (depth_keys t)) -> new_huffman order table = Err ValueError).
Proof.
  intros order table t Ho Hs Hn Et H32. destruct (C20_scaling_never_helps order table Hn) as (t' & E' & Hl & _). assert (t' = t) by congruence. subst t'.
  specialize (Hl H32). destruct (build_tree_ok table 1 Hn) as (t' & E'' & Hd & H1 & Hsy). assert (t' = t) by congruence. subst t'.
  destruct (depth_keys_small t H32) as [K1 K2]. pose proof (Ho _ K1 K2) as Hp.
  assert (Hsy2 : Permutation (csyms t) (count_up (length table))) by (etransitivity; eassumption).
  assert (Hlen : length (csyms t) = length table) by (rewrite (Permutation_length Hsy2); apply count_up_length).
  split; intros Ha.
  - destruct (canonical_total order t Hd H1 Hp) as (can & Ec).
    + intros s. split; intros Hin.
      * apply (Permutation_in _ Hsy2) in Hin. unfold count_up in Hin. apply in_map_iff in Hin. destruct Hin as (i & <- & Hi). apply in_seq in Hi. unfold lenN. lia.
      * apply (Permutation_in _ (Permutation_sym Hsy2)). unfold count_up. apply in_map_iff. exists (N.to_nat s). split; [lia|]. apply in_seq. unfold lenN in Hin. lia.
    + eapply Permutation_NoDup; [symmetry; exact Hsy2|]. unfold count_up. apply FinFun.Injective_map_NoDup; [intros x y Hxy; lia|apply seq_NoDup].
    + exact Ha.
    + destruct (canonical_ok order t can Hd H1 Hp Ec) as (ws & Ew & Hne & Hf & _).
      destruct (rebuild_ok ws (DNode DNone DNone) 0) as (d & Ed & _); [eauto|exact Hne|exact Hf| |].
      { intros q x w Hq. inversion Hq as [|? ? ? ? C|? ? ? ? C]; inversion C. }
      eexists. unfold new_huffman. rewrite Hl. cbn [bind]. rewrite Ec. cbn [bind]. cbv zeta. rewrite Ew, Ed. reflexivity.
  - unfold new_huffman. rewrite Hl. cbn [bind]. now rewrite (canonical_unsorted order t Hd H1 Hp Ha).
Qed.
Print Assumptions C48_built_iff_depths_iterate_ascending.

(** CPython 2.7 iterates over a dictionary with the keys 7 and 8 in the order 8,
    7.  200 symbols of equal frequency have codes of 7 and 8 bits. *)
Definition equal_table : list (N * N) := with_symbols (repeat 1 200).
Theorem C48_cpython_refuted : exists table, (2 <= length table)%nat /\ map fst table = count_up (length table) /\
  (exists t, build_code_tree table 1 = Ok t /\ cdepth t = 8%nat) /\ new_huffman int_dict_order table = Err ValueError.
Proof.
  exists equal_table. split; [vm_compute; lia|]. split; [vm_compute; reflexivity|].
  assert (Hn : (2 <= length equal_table)%nat) by (vm_compute; lia).
  destruct (build_tree_ok equal_table 1 Hn) as (t & E & _). 
  assert (D : match build_code_tree equal_table 1 with Ok t => (cdepth t, int_dict_order (depth_keys t)) | Err _ => (0, [])%nat end = (8, [8; 7])%nat) by (vm_compute; reflexivity).
  rewrite E in D. injection D as D1 D2. split; [exists t; split; [exact E|exact D1]|].
  apply (C48_built_iff_depths_iterate_ascending int_dict_order equal_table t cpython_iterates); try assumption.
  - replace (map fst equal_table) with (count_up (length equal_table)) by (vm_compute; reflexivity). reflexivity.
  - rewrite D1. lia.
  - rewrite D2. intros C. inversion C as [|? ? ? F]; subst. inversion F; subst. lia.
Qed.
Print Assumptions C48_cpython_refuted.
