(** * Property C98: the code delta2 makes from a table of frequencies is an
    optimal one, and the canonical one. *)
From Coq Require Import List NArith ZArith QArith Bool Arith Lia ZifyN ZifyNat Permutation Sorted.
From Verif Require Import PyBase NBits Bits BB_Model BB_Spec BB_Proofs BB_Read HDHuff_Model HDHuff_Opt Prop_HDHuff D2Huff_Model D2Huff_Proofs D2Huff_Dict Prop_D2Huff D2Huff_Opt.
Import ListNotations.
Open Scope N_scope.
Open Scope py_scope.

(** The bits of the word of a symbol. *)
Definition word_for (h : huffman) (s : N) : list bool :=
  match nth_error (h_codes h) (N.to_nat s) with Some w => word_bits w | None => [] end.

(** What a text with the frequencies of the table would take, in 1/512 bits:
    every occurrence counts, and a symbol that does not occur at all counts as a
    five-hundred-and-twelfth of an occurrence. *)
Definition space (table : list (N * N)) (code : N -> list bool) : N :=
  fold_right (fun '(s, f) n => (if f =? 0 then 1 else 512 * f) * lenN (code s) + n) 0 table.

(** The order of the words: by length, then by symbol. *)
Definition earlier (code : N -> list bool) (x y : N) : bool :=
  (length (code x) <? length (code y))%nat || ((length (code x) =? length (code y))%nat && (x <? y)).

(** How many words of the length of the word of [s] begin with an earlier word:
    each of these takes [2 ^ difference of the lengths] of them. *)
Definition used_up (code : N -> list bool) (syms : list N) (s : N) : N :=
  fold_right (fun x n => (if earlier code x s then 2 ^ N.of_nat (length (code s) - length (code x)) else 0) + n) 0 syms.

Lemma space_cost table code : space table code = cost table (fun s => length (code s)).
Proof. induction table as [|[s f] l IH]; [reflexivity|]. cbn [space cost fold_right]. fold (space l code) (cost l (fun s => length (code s))). rewrite IH. reflexivity. Qed.

Lemma used_up_taken code syms s : used_up code syms s = taken (map (fun x => (x, length (code x))) syms) (s, length (code s)).
Proof. induction syms as [|x l IH]; [reflexivity|]. cbn [map]. rewrite taken_cons, <- IH. reflexivity. Qed.

Lemma word_for_ws h ws s : h_codes h = map enc ws -> word_for h s = nth (N.to_nat s) ws [].
Proof.
  intros E. unfold word_for. rewrite E, nth_error_map. destruct (nth_error ws (N.to_nat s)) as [w|] eqn:Ew; cbn [option_map].
  - rewrite (nth_error_nth _ _ _ Ew). unfold word_bits, enc. cbn [fst snd]. apply firstn_bytes_of_bits.
  - apply nth_error_None in Ew. symmetry. now apply nth_overflow.
Qed.

Lemma words_of order table h : iterates order -> NoDup (map fst table) -> new_huffman order table = Ok h ->
  exists ws t d, (2 <= length table)%nat /\ h_codes h = map enc ws /\ build_code_tree table d = Ok t /\
    (forall s, In s (map fst table) -> In (s, length (nth (N.to_nat s) ws [])) (cld t)) /\
    (forall i w, nth_error ws i = Some w -> val_of w = taken (map (fun j => (N.of_nat j, length (nth j ws []))) (seq 0 (length ws))) (N.of_nat i, length w)).
Proof.
  intros Ho. apply new_huffman_words. intros t Et. destruct (build_loop_inv _ _ _ _ Et) as (_ & _ & H).
  destruct (depth_keys_small t H) as [H1 H2]. now apply Ho.
Qed.

(** The symbols of a coder are 0, 1, ... *)
Lemma symbols_of order table h : iterates order -> NoDup (map fst table) -> new_huffman order table = Ok h ->
  Permutation (map N.of_nat (seq 0 (length (h_codes h)))) (map fst table).
Proof.
  intros Ho ND H. assert (Hord : forall t, build_loop 1024 table 1 = Ok t -> Permutation (order (depth_keys t)) (depth_keys t)).
  { intros t Et. destruct (build_loop_inv _ _ _ _ Et) as (_ & _ & H'). destruct (depth_keys_small t H') as [H1 H2]. now apply Ho. }
  unfold new_huffman in H. apply bind_ok in H. destruct H as (t & Et & H). apply bind_ok in H. destruct H as (can & Ec & H).
  cbv zeta in H. apply bind_ok in H. destruct H as (d & Ed & H). injection H as <-. cbn [h_codes].
  specialize (Hord t Et). destruct (build_loop_inv _ _ _ _ Et) as (dv & Eb & H32).
  assert (Hn : (2 <= length table)%nat).
  { unfold build_code_tree in Eb. destruct (Nat.ltb_spec (length table) 2); [discriminate|lia]. }
  destruct (build_tree_ok table dv Hn) as (t' & Et' & Hd & H1 & Hsy). assert (t' = t) by congruence. subst t'.
  destruct (canonical_ok order t can Hd H1 Hord Ec) as (ws & Ew & Hne & Hf & Hl & Hin & Hlt). rewrite Ew, map_length.
  apply NoDup_Permutation; [apply FinFun.Injective_map_NoDup; [intros a b E; lia|apply seq_NoDup]|exact ND|].
  intros s. split.
  - intros Hs. apply in_map_iff in Hs. destruct Hs as (i & <- & Hi). apply in_seq in Hi.
    destruct (nth_error ws i) as [w|] eqn:E; [|apply nth_error_None in E; lia]. specialize (Hin i w E). apply (in_map fst) in Hin. cbn [fst] in Hin.
    eapply Permutation_in; [exact Hsy|exact Hin].
  - intros Hs. assert (s < lenN ws) by (apply Hlt; eapply Permutation_in; [symmetry; exact Hsy|exact Hs]). apply in_map_iff.
    exists (N.to_nat s). unfold lenN in *. split; [lia|apply in_seq; lia].
Qed.

(** For every table (with different symbols) from which a coder can be made: no
    word begins with another one, and no other such code takes less space. *)
Theorem C98_optimal : forall order table h, iterates order -> NoDup (map fst table) -> new_huffman order table = Ok h ->
  prefix_free (word_for h) (map fst table) /\
  forall other, prefix_free other (map fst table) -> space table (word_for h) <= space table other.
Proof.
  intros order table h Ho ND H. pose proof (symbols_of order table h Ho ND H) as HP. split.
  - intros x y z Hx Hy Hne E.
    assert (G : forall s, In s (map fst table) -> exists w, nth_error (h_codes h) (N.to_nat s) = Some w).
    { intros s Hs. eapply Permutation_in in Hs; [|symmetry; exact HP]. apply in_map_iff in Hs. destruct Hs as (i & <- & Hi). apply in_seq in Hi.
      rewrite Nat2N.id. destruct (nth_error (h_codes h) i) eqn:E'; [eauto|apply nth_error_None in E'; lia]. }
    destruct (G x Hx) as (wx & Ex). destruct (G y Hy) as (wy & Ey). unfold word_for in E. rewrite Ex, Ey in E.
    apply (C19_prefix_free order table h Ho H _ _ _ _ Ex Ey); [lia|]. now exists z.
  - intros other Hp. destruct (words_of order table h Ho ND H) as (ws & t & d & Hn & Ew & Eb & Hd & _). rewrite !space_cost, (cost_pcost table (fun s => length (other s))).
    apply (build_optimal table d t Hn ND Eb (fun s => length (word_for h s))).
    + intros s Hs. rewrite (word_for_ws h ws s Ew). now apply Hd.
    + rewrite map_map. assert (Em : map (fun x : N * N => fst (let '(s, f) := x in (weight f, length (other s)))) table = map (fun e => weight (snd e)) table).
      { apply map_ext. now intros [s f]. }
      rewrite Em. reflexivity.
    + assert (Em : map snd (map (fun '(s, f) => (weight f, length (other s))) table) = map (@length bool) (map other (map fst table))).
      { rewrite !map_map. apply map_ext. now intros [s f]. }
      rewrite Em. apply prefix_kraft, prefix_free_pairwise; assumption.
Qed.
Print Assumptions C98_optimal.

(** The words are given out in the order of their lengths and, among those of one
    length, of their symbols: each is the first that is left, read as a number. *)
Theorem C98_canonical : forall order table h, iterates order -> NoDup (map fst table) -> new_huffman order table = Ok h ->
  forall s, In s (map fst table) -> val_of (word_for h s) = used_up (word_for h) (map fst table) s.
Proof.
  intros order table h Ho ND H s Hs. pose proof (symbols_of order table h Ho ND H) as HP.
  destruct (words_of order table h Ho ND H) as (ws & t & d & Hn & Ew & Eb & Hd & Hv). rewrite used_up_taken.
  assert (Hl : length (h_codes h) = length ws) by (rewrite Ew; apply map_length). rewrite Hl in HP.
  rewrite (taken_perm _ _ _ (Permutation_map (fun x => (x, length (word_for h x))) (Permutation_sym HP))), map_map.
  assert (Hs' := Hs). eapply Permutation_in in Hs'; [|symmetry; exact HP]. apply in_map_iff in Hs'. destruct Hs' as (i & <- & Hi). apply in_seq in Hi.
  destruct (nth_error ws i) as [w|] eqn:Ei; [|apply nth_error_None in Ei; lia].
  rewrite (word_for_ws h ws (N.of_nat i) Ew), Nat2N.id, (nth_error_nth _ _ _ Ei), (Hv i w Ei). f_equal.
  apply map_ext. intros j. now rewrite (word_for_ws h ws (N.of_nat j) Ew), Nat2N.id.
Qed.
Print Assumptions C98_canonical.

(** The two tables of the program. *)
Corollary C98_shipped_tables : forall t, t = d2_request_table \/ t = d2_response_table ->
  exists h, new_huffman int_dict_order t = Ok h /\
    (forall other, prefix_free other (map fst t) -> space t (word_for h) <= space t other) /\
    (forall s, s <= 256 -> val_of (word_for h s) = used_up (word_for h) (map fst t) s).
Proof.
  intros t Ht. destruct (C19_shipped_tables t Ht) as (h & E & _). exists h. split; [exact E|].
  assert (ND : NoDup (map fst t)).
  { replace (map fst t) with (count_up 257) by (destruct Ht as [-> | ->]; vm_compute; reflexivity).
    unfold count_up. apply FinFun.Injective_map_NoDup; [intros a b Eab; lia|apply seq_NoDup]. }
  split; [apply (C98_optimal _ _ _ cpython_iterates ND E)|]. intros s Hs.
  apply (C98_canonical _ _ _ cpython_iterates ND E), (shipped_symbols t Ht), Hs.
Qed.
Print Assumptions C98_shipped_tables.

(** Five symbols, one of which never occurs. *)
Example C98_example :
  let table := [(0, 2); (1, 5); (2, 0); (3, 1); (4, 5)] in
  iterates int_dict_order /\ NoDup (map fst table) /\
  exists h, new_huffman int_dict_order table = Ok h /\
    map (word_for h) [0; 1; 2; 3; 4] =
      [[true; true; false]; [true; false]; [true; true; true; false]; [true; true; true; true]; [false]] /\
    space table (word_for h) = 512 * (2 * 3 + 10 + 4 + 5) + 4 /\
    map (used_up (word_for h) (map fst table)) [0; 1; 2; 3; 4] = [6; 2; 14; 15; 0].
Proof.
  split; [exact cpython_iterates|]. split; [repeat constructor; cbn; intuition discriminate|].
  eexists. split; [vm_compute; reflexivity|]. repeat split; vm_compute; reflexivity.
Qed.
