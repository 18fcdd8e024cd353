(** * Property C50: the Huffman coder of delta (v1). *)
From Coq Require Import List NArith ZArith Bool Arith Lia ZifyN ZifyNat Permutation.
From Verif Require Import PyBase NBits Bits BB_Model BB_Spec BB_Proofs Prop_BB BB_Read HDHuff_Model HDHuff_Bits HDHuff_Opt Prop_HDHuff
  D2Huff_Model D2Huff_Proofs Prop_D2Huff D1Huff_Model D1Huff_Proofs.
Import ListNotations.
Open Scope N_scope.
Open Scope py_scope.

(** The tables a coder can be built from: two or more entries whose symbols are
    0, 1, ... in any order, each once. *)
Definition numbered (table : list (N * N)) : Prop :=
  (2 <= length table)%nat /\ Permutation (map fst table) (map N.of_nat (seq 0 (length table))).

Theorem C50_built_iff_numbered : forall table,
  (numbered table -> exists h, d1_huffman table = Ok h) /\ (~ numbered table -> d1_huffman table = Err StandardError).
Proof.
  intros table. split; intros H.
  - destruct H as [H2 HP]. destruct (d1_huffman_ok table H2 HP) as (h & _ & _ & E & _). eauto.
  - now apply d1_huffman_raises.
Qed.
Print Assumptions C50_built_iff_numbered.

Lemma built_numbered table h : d1_huffman table = Ok h -> exists ws, good h ws /\ length ws = length table /\ numbered table.
Proof.
  intros E. destruct (d1_huffman_inv table h E) as [H2 HP].
  destruct (d1_huffman_ok table H2 HP) as (h' & ws & t & E' & Hl & G & _). assert (h' = h) by congruence. subst. exists ws. repeat split; assumption || apply G.
Qed.

(** A string of octets, coded with the end marker and put into a bucket that is
    read up to its end, can be decoded again whatever is written after it, and
    the reader then stands where the end marker stopped. *)
Theorem C50_roundtrip : forall table h, d1_huffman table = Ok h -> In 256 (map fst table) ->
  forall ops a b, Forall mop_ok ops -> bb_run bb_new ops = Ok (a, b) -> at_end b ->
  forall text, Forall (fun c => c < 256) text ->
  exists octets nbits b1, huff_encode h text true = Ok (octets, nbits) /\ bb_store b octets nbits = Ok b1 /\
  forall later, Forall mop_ok later -> Forall m_is_write later ->
  exists a2 b2 b3, bb_run b1 later = Ok (a2, b2) /\ decode_from_bb h b2 true 0 = Ok (text, b3) /\ read_pos b3 = bb_num b1.
Proof.
  intros table h H Hin ops a b HF Hrun Hend text Ht. destruct (built_numbered table h H) as (ws & G & Hl & _ & HP).
  destruct (at_end_rd ops a b HF Hrun Hend) as (A & HA).
  assert (He : 256 < lenN ws).
  { apply (Permutation_in _ HP) in Hin. apply in_map_iff in Hin. destruct Hin as (k & Ek & Hk). apply in_seq in Hk. unfold lenN. lia. }
  assert (Ht1 : Forall (fun c => c < lenN ws) text) by (eapply Forall_impl; [|exact Ht]; cbn; intros c Hx; lia).
  assert (Ht2 : Forall (fun c => c < lenN ws /\ c <> 256) text) by (eapply Forall_impl; [|exact Ht]; cbn; intros c Hx; lia).
  set (W := bits_for ws text ++ word_of ws 256).
  destruct (rd_store_bits b A [] W HA) as (b1 & E1 & H1). exists (bytes_of_bits W), (length W), b1. split; [now apply encode_ok|]. split; [exact E1|].
  intros later HF2 Hw. destruct (writes_rd later HF2 Hw b1 A _ H1) as (a2 & b2 & X & E2 & H2). cbn [app] in H2.
  unfold W in H2. rewrite <- app_assoc in H2. destruct (decode_eof_ok h ws text G He Ht2 b2 A X H2) as (b3 & E3 & H3).
  exists a2, b2, b3. split; [exact E2|]. split; [exact E3|]. unfold read_pos. rewrite (rd_pos _ _ _ H3), (rd_num _ _ _ H1).
  cbn [app]. unfold W. now rewrite app_length.
Qed.
Print Assumptions C50_roundtrip.

(** The bits of the code word of a symbol. *)
Definition d1_word (h : huffman) (k : N) : list bool :=
  match nth_error (h_codes h) (N.to_nat k) with Some w => word_bits w | None => [] end.
(** The length of a text in which every symbol occurs as often as the table says. *)
Definition text_bits (table : list (N * N)) (code : N -> list bool) : N :=
  fold_right (fun '(k, v) n => v * lenN (code k) + n) 0 table.

Lemma text_bits_perm_map table code (l : list (hsym * N * list bool)) :
  Permutation (map fst l) (map num_entry table) -> (forall k w p, In (Num k, w, p) l -> code k = p) ->
  (forall s w p, In (s, w, p) l -> exists k, s = Num k) -> text_bits table code = wsum l.
Proof.
  intros HP Hc Hn. assert (E : text_bits table code = fold_right (fun '(s, w) n => w * lenN (code (sym_num s)) + n) 0 (map num_entry table)).
  { clear. induction table as [|[k v] t IH]; [reflexivity|]. cbn [text_bits fold_right map num_entry fst snd sym_num]. now rewrite <- IH. }
  rewrite E. clear E. assert (E : fold_right (fun '(s, w) n => w * lenN (code (sym_num s)) + n) 0 (map num_entry table) =
    fold_right (fun '(s, w) n => w * lenN (code (sym_num s)) + n) 0 (map fst l)).
  { clear -HP. induction HP; repeat match goal with x : (hsym * N)%type |- _ => destruct x end; cbn [fold_right]; lia. }
  rewrite E. clear E HP. induction l as [|[[s w] p] l IH]; [reflexivity|]. cbn [map fst fold_right wsum].
  rewrite IH; [|intros; eapply Hc; right; eauto|intros; eapply Hn; right; eauto]. destruct (Hn s w p (or_introl eq_refl)) as (k & ->).
  cbn [sym_num]. rewrite (Hc k w p (or_introl eq_refl)). reflexivity.
Qed.

(** The code words are prefix-free, and no prefix-free code for the same symbols
    needs fewer bits. *)
Theorem C50_optimal : forall table h, d1_huffman table = Ok h ->
  prefix_free (d1_word h) (map fst table) /\
  forall other, prefix_free other (map fst table) -> text_bits table (d1_word h) <= text_bits table other.
Proof.
  intros table h E. destruct (built_numbered table h E) as (_ & _ & _ & H2 & HP).
  destruct (d1_huffman_ok table H2 HP) as (h' & ws & t & E' & Hl & G & W & L & Opt & Hn). assert (h' = h) by congruence. subst h'. clear E'.
  assert (ND : NoDup (map fst table)).
  { eapply Permutation_NoDup; [symmetry; exact HP|]. apply FinFun.Injective_map_NoDup; [intros x y Hxy; lia|apply seq_NoDup]. }
  assert (Hw : forall k p, In (Num k, p) (paths t) -> d1_word h k = p).
  { intros k p Hin. unfold d1_word. rewrite <- (N2Nat.id k) in Hin. apply Hn in Hin. rewrite (g_codes _ _ G), nth_error_map, Hin. cbn [option_map].
    unfold word_bits, enc. cbn [fst snd]. apply firstn_bytes_of_bits. }
  assert (Hk : forall k, In k (map fst table) -> In (Num k, d1_word h k) (paths t)).
  { intros k Hin. assert (Hs : In (Num k) (map fst (paths t))).
    { rewrite <- leaves_paths. apply (Permutation_in _ (Permutation_sym (Permutation_map fst L))). rewrite map_map. apply in_map_iff in Hin.
      destruct Hin as (e & <- & He). apply in_map_iff. now exists e. }
    apply in_map_iff in Hs. destruct Hs as ([s p] & Es & Hin'). cbn [fst] in Es. subst s. now rewrite (Hw _ _ Hin'). }
  split.
  - intros x y z Hx Hy Hne Ep. apply Hk in Hx, Hy. rewrite Ep in Hy. apply Hne. pose proof (paths_prefix _ _ _ _ _ Hx Hy) as Eq. congruence.
  - intros other Hp.
    assert (Eb : text_bits table (d1_word h) = wsum (wpaths t)).
    { apply text_bits_perm_map.
      - now rewrite wpaths_leaves.
      - intros k w p Hin. apply Hw. eapply wpaths_paths, Hin.
      - intros s w p Hin. destruct (table_paths table t L) as [Hnum _]. apply Hnum. apply wpaths_paths in Hin. apply in_map_iff. now exists (s, p). }
    rewrite Eb, wsum_cost by exact W.
    assert (Ep : text_bits table other = pcost (map (fun '(k, v) => (v, length (other k))) table)).
    { clear. induction table as [|[k v] l IH]; [reflexivity|]. cbn [text_bits fold_right map pcost]. fold (text_bits l other). now rewrite IH. }
    rewrite Ep. apply Opt.
    + rewrite map_map. apply Permutation_refl', map_ext. now intros [k v].
    + assert (Em : map snd (map (fun '(k, v) => (v, length (other k))) table) = map (@length bool) (map other (map fst table))).
      { rewrite !map_map. apply map_ext. now intros [k v]. }
      rewrite Em. apply prefix_kraft, prefix_free_pairwise; assumption.
Qed.
Print Assumptions C50_optimal.

(** The two tables of the program. *)
Theorem C50_shipped_tables : forall t, t = d1_request_table \/ t = d1_response_table -> numbered t /\ In 256 (map fst t).
Proof.
  intros t Ht. assert (E : map fst t = map N.of_nat (seq 0 257) /\ length t = 257%nat) by (destruct Ht as [-> | ->]; vm_compute; auto).
  destruct E as [E El]. unfold numbered. rewrite E, El. split; [split; [lia|reflexivity]|]. apply in_map_iff. exists 256%nat. split; [reflexivity|]. apply in_seq. lia.
Qed.
Print Assumptions C50_shipped_tables.

(** Six symbols, in an odd order; one that never occurs. *)
Example C50_nontrivial :
  let table := [(5, 1); (0, 7); (3, 0); (1, 2); (4, 2); (2, 9)] in
  numbered table /\
  match d1_huffman table with
  | Ok h => map (d1_word h) (map N.of_nat (seq 0 6)) =
      [[true; true]; [true; false; true; true]; [false]; [true; false; true; false; false]; [true; false; false]; [true; false; true; false; true]] /\
      text_bits table (d1_word h) = 42
  | Err _ => False
  end.
Proof.
  cbv zeta. split; [|vm_compute; split; reflexivity]. split; [cbn; lia|]. apply NoDup_Permutation.
  - repeat constructor; cbn; intuition discriminate.
  - repeat constructor; cbn; intuition discriminate.
  - intros x. cbn. lia.
Qed.
Example C50_nontrivial_string :
  match d1_huffman d1_request_table with
  | Ok h => match huff_encode h [47; 105; 110; 0; 255] true with
            | Ok (o, n) => n = 68%nat /\ (let* b := bb_store bb_new o n in let* (s, _) := decode_from_bb h b true 0 in Ok s) = Ok [47; 105; 110; 0; 255]
            | Err _ => False
            end
  | Err _ => False
  end.
Proof. vm_compute. split; reflexivity. Qed.
