(** * The Huffman coder of delta (v1): the constructor builds an optimal prefix
      code, and the coder is a [good] one in the sense of D2Huff_Proofs. *)
From Coq Require Import List NArith ZArith Bool Arith Lia ZifyN ZifyNat Permutation Sorted.
From Verif Require Import PyBase NBits Bits BB_Model BB_Spec BB_Proofs BB_Read HDHuff_Model HDHuff_Bits HDHuff_Opt Prop_HDHuff
  D2Huff_Model D2Huff_Proofs D1Huff_Model.
Import ListNotations.
Open Scope N_scope.
Open Scope py_scope.

(** ** The loop is headerdiff's *)

Lemma pick_len o n x o' n' : pick_node o n = Ok (x, o', n') -> (length o + length n = S (length o' + length n'))%nat.
Proof.
  destruct o as [|a o], n as [|b n]; cbn [pick_node]; intros H; try discriminate.
  - inversion H; subst. reflexivity.
  - inversion H; subst. cbn [length]. lia.
  - destruct (priority a <=? priority b); inversion H; subst; cbn [length]; lia.
Qed.

Lemma merge_tree_loop fuel : forall o n r, tree_loop fuel o n = Ok r -> exists o', merge_loop fuel o n = Ok (o', r) /\ (length o' + length r <= 1)%nat.
Proof.
  induction fuel as [|f IH]; intros o n r H; cbn [tree_loop merge_loop] in *.
  - destruct (Nat.leb_spec 2 (length o + length n)), (Nat.ltb_spec 1 (length o + length n)); try lia; try discriminate.
    exists o. assert (r = n) by congruence. subst. split; [reflexivity|lia].
  - destruct (Nat.leb_spec 2 (length o + length n)), (Nat.ltb_spec 1 (length o + length n)); try lia.
    + destruct (pick_node o n) as [[[a o1] n1]|e]; [|discriminate]. cbn [bind] in *.
      destruct (pick_node o1 n1) as [[[b o2] n2]|e]; [|discriminate]. cbn [bind] in *. now apply IH.
    + exists o. assert (r = n) by congruence. subst. split; [reflexivity|lia].
Qed.

(** ** Sorting *)

Lemma insert_entry_perm x l : Permutation (insert_entry x l) (x :: l).
Proof.
  induction l as [|y l IH]; cbn [insert_entry]; [reflexivity|]. destruct (entry_leb x y); [reflexivity|].
  etransitivity; [apply perm_skip, IH|apply perm_swap].
Qed.
Lemma sort_entries_perm l : Permutation (sort_entries l) l.
Proof. induction l as [|x l IH]; cbn; [constructor|]. etransitivity; [apply insert_entry_perm|now apply perm_skip]. Qed.

Lemma insert_entry_sorted x l : StronglySorted (fun a b : N * N => snd a <= snd b) l -> StronglySorted (fun a b : N * N => snd a <= snd b) (insert_entry x l).
Proof.
  induction 1 as [|y l S IH F]; cbn [insert_entry]; [repeat constructor|]. unfold entry_leb.
  destruct (if snd x =? snd y then fst x <=? fst y else snd x <? snd y) eqn:E.
  - assert (H : snd x <= snd y) by (destruct (N.eqb_spec (snd x) (snd y)); [lia|apply N.ltb_lt in E; lia]).
    constructor; [now constructor|]. constructor; [exact H|]. eapply Forall_impl; [|exact F]. cbn. intros; lia.
  - assert (H : snd y <= snd x) by (destruct (N.eqb_spec (snd x) (snd y)); [lia|apply N.ltb_ge in E; lia]).
    constructor; [exact IH|]. eapply Permutation_Forall; [symmetry; apply insert_entry_perm|]. constructor; assumption.
Qed.
Lemma sort_entries_sorted l : StronglySorted (fun a b : N * N => snd a <= snd b) (sort_entries l).
Proof. induction l as [|x l IH]; cbn; [constructor|now apply insert_entry_sorted]. Qed.

Lemma psorted_entries l : StronglySorted (fun a b : N * N => snd a <= snd b) l -> psorted (map entry_leaf l).
Proof.
  induction 1 as [|y l S IH F]; cbn [map]; constructor; [exact IH|]. rewrite Forall_map. exact F.
Qed.

(** ** The tree *)

Definition num_entry (e : N * N) : hsym * N := (Num (fst e), snd e).

Lemma merge_tree_ok table : (2 <= length table)%nat ->
  exists t, merge_tree table = Ok t /\ wf_tree t /\ is_hnode t /\ Permutation (leaves t) (map num_entry table) /\
    forall P, Permutation (map fst P) (map snd table) -> kraft (map snd P) -> tcost t <= pcost P.
Proof.
  intros H. unfold merge_tree. destruct (Nat.ltb_spec (length table) 2); [lia|]. cbv zeta.
  pose proof (sort_entries_perm table) as Hp. pose proof (sort_entries_sorted table) as Hs.
  set (s := sort_entries table) in *. clearbody s. rewrite map_length.
  assert (Hl : length s = length table) by now apply Permutation_length.
  destruct (tree_loop_ok (length s) (map entry_leaf s) []) as (t & E & W & Nd & L & C).
  - split; [now apply psorted_entries|]. split; [constructor|]. exists 0. split; [|constructor]. apply Forall_forall. intros; lia.
  - rewrite map_length. cbn [length]. lia.
  - intros _. rewrite map_length. lia.
  - rewrite app_nil_r. apply Forall_map, Forall_forall. intros e _. exact I.
  - constructor.
  - rewrite app_nil_r in *. destruct (merge_tree_loop _ _ _ _ E) as (o' & E' & Hlen). rewrite E'. cbn [bind length] in *.
    destruct o' as [|x o']; [|cbn [length] in Hlen; lia]. cbn [rev app]. exists t. split; [reflexivity|]. split; [exact W|]. split; [exact Nd|].
    assert (Es : flat_map leaves (map entry_leaf s) = map num_entry s) by (clear; induction s as [|e l IH]; cbn; [reflexivity|]; now rewrite IH).
    assert (Ew : map priority (map entry_leaf s) = map snd s) by (rewrite map_map; reflexivity).
    assert (Ef : fcost (map entry_leaf s) = 0) by (clear; induction s as [|e l IH]; cbn in *; auto).
    split.
    + rewrite L, Es. now apply Permutation_map.
    + intros P HP HK. specialize (C P). rewrite Ef in C. apply C; [|exact HK]. rewrite HP, Ew. symmetry. now apply Permutation_map.
Qed.

(** ** The table *)

Lemma pre_table_paths t : forall path, Permutation (pre_table t path) (map (fun x => (sym_num (fst x), path ++ snd x)) (paths t)).
Proof.
  induction t as [p s|p a IHa b IHb]; intros path; cbn [pre_table paths].
  - cbn [map fst snd]. now rewrite app_nil_r.
  - rewrite IHa, IHb, map_app, !map_map, Permutation_app_comm. cbn [fst snd].
    apply Permutation_app; apply Permutation_refl'; apply map_ext; intros [s q]; cbn [fst snd]; now rewrite <- app_assoc.
Qed.

Lemma insert_path_perm x l : Permutation (insert_path x l) (x :: l).
Proof.
  induction l as [|y l IH]; cbn [insert_path]; [reflexivity|]. destruct (fst x <=? fst y); [reflexivity|].
  etransitivity; [apply perm_skip, IH|apply perm_swap].
Qed.
Lemma sort_paths_perm l : Permutation (sort_paths l) l.
Proof. induction l as [|x l IH]; cbn; [constructor|]. etransitivity; [apply insert_path_perm|now apply perm_skip]. Qed.
Lemma insert_path_sorted x l : StronglySorted (fun a b => fst a <= fst b) l -> StronglySorted (fun a b => fst a <= fst b) (insert_path x l).
Proof.
  induction 1 as [|y l S IH F]; cbn [insert_path]; [repeat constructor|]. destruct (N.leb_spec (fst x) (fst y)) as [H|H].
  - constructor; [now constructor|]. constructor; [exact H|]. eapply Forall_impl; [|exact F]. cbn. intros; lia.
  - constructor; [exact IH|]. eapply Permutation_Forall; [symmetry; apply insert_path_perm|]. constructor; [lia|exact F].
Qed.
Lemma sort_paths_sorted l : StronglySorted (fun a b => fst a <= fst b) (sort_paths l).
Proof. induction l as [|x l IH]; cbn; [constructor|now apply insert_path_sorted]. Qed.

(** Consecutive numbers from [i]. *)
Definition count_from (i : N) (n : nat) : list N := map (fun k => i + N.of_nat k) (seq 0 n).
Lemma count_from_S i n : count_from i (S n) = i :: count_from (i + 1) n.
Proof.
  unfold count_from. cbn [seq map]. rewrite N.add_0_r. f_equal. rewrite <- seq_shift, map_map. apply map_ext. intros k. lia.
Qed.

Lemma number_words_ok l : forall i, map fst l = count_from i (length l) -> Forall (fun x => snd x <> []) l ->
  number_words i l = Ok (map (fun x => enc (snd x)) l).
Proof.
  induction l as [|[n p] l IH]; intros i E F; [reflexivity|]. cbn [length map number_words fst] in *. rewrite count_from_S in E.
  inversion E; subst. inversion F; subst. cbn [snd] in *. rewrite N.eqb_refl, brep_ok by assumption. cbn [bind].
  now rewrite IH by assumption.
Qed.
Lemma number_words_inv l : forall i ws, number_words i l = Ok ws -> map fst l = count_from i (length l).
Proof.
  induction l as [|[n p] l IH]; intros i ws H; [reflexivity|]. cbn [length map number_words fst] in *. rewrite count_from_S.
  destruct (N.eqb_spec i n) as [<-|]; [|discriminate]. apply bind_ok in H. destruct H as (w & _ & H). apply bind_ok in H. destruct H as (r & H & _).
  f_equal. eapply IH, H.
Qed.
Lemma number_words_fail l : forall i, Forall (fun x => snd x <> []) l -> map fst l <> count_from i (length l) -> number_words i l = Err StandardError.
Proof.
  induction l as [|[n p] l IH]; intros i F H; [now destruct H|]. cbn [length map number_words fst] in *. rewrite count_from_S in H.
  inversion F; subst. cbn [snd] in *. destruct (N.eqb_spec i n) as [<-|]; [|reflexivity]. rewrite brep_ok by assumption. cbn [bind].
  rewrite IH; [reflexivity|assumption|]. intros E. apply H. now rewrite E.
Qed.

Lemma count_from_sorted i n : StronglySorted N.le (count_from i n).
Proof.
  revert i. induction n as [|n IH]; intros i; [constructor|]. rewrite count_from_S. constructor; [apply IH|].
  unfold count_from. rewrite Forall_map. apply Forall_forall. intros k _. lia.
Qed.
Lemma sorted_perm_unique (a b : list N) : StronglySorted N.le a -> StronglySorted N.le b -> Permutation a b -> a = b.
Proof.
  intros Sa. revert b. induction Sa as [|x a Sa IH Fa]; intros b Sb P.
  - symmetry. now apply Permutation_nil.
  - destruct b as [|y b]; [symmetry in P; now apply Permutation_nil in P|]. inversion Sb as [|? ? Sb' Fb]; subst.
    assert (E : x = y).
    { assert (Hx : In x (y :: b)) by (eapply Permutation_in; [exact P|now left]).
      assert (Hy : In y (x :: a)) by (eapply Permutation_in; [symmetry; exact P|now left]).
      rewrite Forall_forall in Fa, Fb. destruct Hx as [->|Hx]; [reflexivity|]. destruct Hy as [->|Hy]; [reflexivity|].
      specialize (Fa _ Hy). specialize (Fb _ Hx). lia. }
    subst y. f_equal. apply IH; [exact Sb'|]. eapply Permutation_cons_inv, P.
Qed.

Lemma count_up_from n : count_up n = count_from 0 n.
Proof. unfold count_up, count_from. apply map_ext. intros k. lia. Qed.

(** ** The coder *)

Lemma leaf_at_paths t q x : leaf_at (dtree_of t) q x <-> exists s, In (s, q) (paths t) /\ x = sym_num s.
Proof.
  revert q. induction t as [p s|p a IHa b IHb]; intros q; cbn [dtree_of paths].
  - split.
    + intros H. inversion H; subst. exists s. split; [now left|reflexivity].
    + intros (s' & [E|[]] & ->). inversion E; subst. constructor.
  - split.
    + intros H. inversion H; subst.
      * destruct (proj1 (IHa _) H4) as (s & Hs & ->). exists s. split; [|reflexivity]. apply in_or_app. left. apply in_map_iff. now exists (s, p0).
      * destruct (proj1 (IHb _) H4) as (s & Hs & ->). exists s. split; [|reflexivity]. apply in_or_app. right. apply in_map_iff. now exists (s, p0).
    + intros (s & Hs & ->). apply in_app_or in Hs. destruct Hs as [Hs|Hs]; apply in_map_iff in Hs; destruct Hs as ([s' q'] & E & Hs);
        cbn [fst snd] in E; inversion E; subst; constructor; [apply IHa|apply IHb]; eauto.
Qed.

Lemma code_table_ok t n : is_hnode t -> (forall s, In s (map fst (paths t)) -> exists k, s = Num k) ->
  Permutation (map (fun x => sym_num (fst x)) (paths t)) (count_up n) ->
  exists ws, code_table t = Ok (map enc ws) /\ length ws = n /\ good (mk_huffman (map enc ws) (dtree_of t)) ws /\
    forall i w, nth_error ws i = Some w <-> In (Num (N.of_nat i), w) (paths t).
Proof.
  intros Hnode Hnum HP. unfold code_table. pose proof (pre_table_paths t []) as Hpre. cbn [app] in Hpre.
  pose proof (sort_paths_perm (pre_table t [])) as Hsp. pose proof (sort_paths_sorted (pre_table t [])) as Hss.
  set (l := sort_paths (pre_table t [])) in *. clearbody l. rewrite Hpre in Hsp. clear Hpre.
  assert (Hf : map fst l = count_up n).
  { apply sorted_perm_unique.
    - clear -Hss. induction Hss as [|x l S IH F]; cbn [map]; constructor; [exact IH|now apply Forall_map].
    - rewrite count_up_from. apply count_from_sorted.
    - rewrite <- HP. apply (Permutation_map fst) in Hsp. rewrite map_map in Hsp. exact Hsp. }
  assert (Hl : length l = n) by (apply (f_equal (@length N)) in Hf; unfold count_up in Hf; now rewrite !map_length, seq_length in Hf).
  assert (Hin : forall k w, In (k, w) l <-> In (Num k, w) (paths t)).
  { intros k w. split; intros H.
    - apply (Permutation_in _ Hsp) in H. apply in_map_iff in H. destruct H as ([s q] & E & H). cbn [fst snd] in E. inversion E; subst.
      destruct (Hnum s) as (k' & ->); [apply in_map_iff; now exists (s, w)|]. exact H.
    - apply (Permutation_in _ (Permutation_sym Hsp)). apply in_map_iff. now exists (Num k, w). }
  assert (Hnth : forall i w, nth_error (map snd l) i = Some w <-> In (Num (N.of_nat i), w) (paths t)).
  { intros i w. rewrite <- Hin. assert (Hfst : forall j k p, nth_error l j = Some (k, p) -> k = N.of_nat j).
    { intros j k p Hj. assert (Ej : nth_error (map fst l) j = Some k) by (rewrite nth_error_map, Hj; reflexivity).
      rewrite Hf in Ej. unfold count_up in Ej. rewrite nth_error_map in Ej.
      destruct (nth_error (seq 0 n) j) as [m|] eqn:Em; [|discriminate]. cbn in Ej.
      assert (m = j) by (apply nth_error_nth with (d := 0%nat) in Em; rewrite seq_nth in Em; [lia|];
        rewrite <- Hl; apply nth_error_Some; congruence). congruence. }
    split; intros H.
    - rewrite nth_error_map in H. destruct (nth_error l i) as [[k p]|] eqn:Ei; [|discriminate]. cbn in H. inversion H; subst.
      rewrite <- (Hfst _ _ _ Ei). now apply nth_error_In in Ei.
    - apply In_nth_error in H. destruct H as (j & Hj). pose proof (Hfst _ _ _ Hj) as E. apply Nat2N.inj in E. subst j.
      rewrite nth_error_map, Hj. reflexivity. }
  assert (Hne : Forall (fun x : N * list bool => snd x <> []) l).
  { apply Forall_forall. intros [k w] H. apply Hin in H. cbn [snd]. eapply path_nonempty; [|exact H]. destruct t; exact Hnode. }
  exists (map snd l). split; [|split; [now rewrite map_length|split; [|exact Hnth]]].
  - rewrite map_map. apply number_words_ok; [|exact Hne]. rewrite Hl, Hf. apply count_up_from.
  - constructor; cbn [h_codes h_tree].
    + reflexivity.
    + apply Forall_map. exact Hne.
    + intros i j a b Ha Hb Hij [[z E]|[z E]]; apply Hnth in Ha, Hb; subst; apply Hij.
      * pose proof (paths_prefix _ _ _ _ _ Ha Hb) as Ep. injection Ep. lia.
      * pose proof (paths_prefix _ _ _ _ _ Hb Ha) as Ep. injection Ep. lia.
    + destruct t as [|p a b]; [destruct Hnode|]. cbn [dtree_of]. eauto.
    + intros i w H. apply Hnth in H. apply leaf_at_paths. eauto.
    + intros q x H. apply leaf_at_paths in H. destruct H as (s & Hs & ->).
      destruct (Hnum s) as (k & ->); [apply in_map_iff; now exists (s, q)|]. cbn [sym_num]. exists (N.to_nat k). rewrite N2Nat.id. split; [|reflexivity].
      apply Hnth. now rewrite N2Nat.id.
Qed.

Lemma table_paths table t : Permutation (leaves t) (map num_entry table) ->
  (forall s, In s (map fst (paths t)) -> exists k, s = Num k) /\ Permutation (map (fun x => sym_num (fst x)) (paths t)) (map fst table).
Proof.
  intros L. apply (Permutation_map fst) in L. rewrite leaves_paths, map_map in L. cbn [num_entry fst] in L. split.
  - intros s Hs. apply (Permutation_in _ L) in Hs. apply in_map_iff in Hs. destruct Hs as (e & <- & _). eauto.
  - apply (Permutation_map sym_num) in L. rewrite !map_map in L. cbn [sym_num] in L. exact L.
Qed.

Lemma d1_huffman_ok table : (2 <= length table)%nat -> Permutation (map fst table) (count_up (length table)) ->
  exists h ws t, d1_huffman table = Ok h /\ length ws = length table /\ good h ws /\
    wf_tree t /\ Permutation (leaves t) (map num_entry table) /\
    (forall P, Permutation (map fst P) (map snd table) -> kraft (map snd P) -> tcost t <= pcost P) /\
    forall i w, nth_error ws i = Some w <-> In (Num (N.of_nat i), w) (paths t).
Proof.
  intros H2 HP. destruct (merge_tree_ok table H2) as (t & E & W & Nd & L & C). destruct (table_paths table t L) as [Hnum Hsym].
  destruct (code_table_ok t (length table) Nd Hnum ltac:(now rewrite Hsym)) as (ws & Ew & Hl & G & Hn).
  unfold d1_huffman. rewrite E. cbn [bind]. rewrite Ew. cbn [bind]. exists (mk_huffman (map enc ws) (dtree_of t)), ws, t. repeat split; auto; apply G || apply Hn.
Qed.

(** The table of any other list of counts is rejected. *)
Lemma table_numbered (table : list (N * N)) t : Permutation (map (fun x => sym_num (fst x)) (paths t)) (map fst table) ->
  map fst (sort_paths (pre_table t [])) = count_from 0 (length (sort_paths (pre_table t []))) -> Permutation (map fst table) (count_up (length table)).
Proof.
  intros Hsym Ec. rewrite <- Hsym.
  assert (Ep : Permutation (map fst (sort_paths (pre_table t []))) (map (fun x => sym_num (fst x)) (paths t))).
  { rewrite sort_paths_perm, pre_table_paths, map_map. reflexivity. }
  assert (El : length (sort_paths (pre_table t [])) = length table).
  { pose proof (Permutation_length Ep) as E1. pose proof (Permutation_length Hsym) as E2. rewrite !map_length in E1, E2. congruence. }
  rewrite El, <- count_up_from in Ec. rewrite <- Ec. symmetry. exact Ep.
Qed.

Lemma d1_huffman_raises table : ~ ((2 <= length table)%nat /\ Permutation (map fst table) (count_up (length table))) ->
  d1_huffman table = Err StandardError.
Proof.
  intros H. unfold d1_huffman. destruct (Nat.ltb_spec (length table) 2) as [Hl|Hl].
  - unfold merge_tree. destruct (Nat.ltb_spec (length table) 2); [reflexivity|lia].
  - destruct (merge_tree_ok table Hl) as (t & E & W & Nd & L & _). rewrite E. cbn [bind]. destruct (table_paths table t L) as [Hnum Hsym].
    unfold code_table. rewrite (number_words_fail _ 0); [reflexivity| |].
    + eapply Permutation_Forall; [symmetry; apply sort_paths_perm|]. apply Forall_forall. intros [k w] Hx. cbn [snd].
      apply (Permutation_in _ (pre_table_paths t [])) in Hx. apply in_map_iff in Hx. destruct Hx as ([s q] & Ex & Hx). cbn [fst snd app] in Ex.
      inversion Ex; subst. eapply path_nonempty; [|exact Hx]. destruct t; exact Nd.
    + intros Ec. apply H. split; [exact Hl|]. eapply table_numbered; eassumption.
Qed.

Lemma d1_huffman_inv table h : d1_huffman table = Ok h -> (2 <= length table)%nat /\ Permutation (map fst table) (count_up (length table)).
Proof.
  intros H. unfold d1_huffman in H. apply bind_ok in H. destruct H as (t & E & H). apply bind_ok in H. destruct H as (ws & Ew & _).
  assert (H2 : (2 <= length table)%nat) by (unfold merge_tree in E; destruct (Nat.ltb_spec (length table) 2); [discriminate|lia]). split; [exact H2|].
  destruct (merge_tree_ok table H2) as (t' & E' & _ & _ & L & _). assert (t' = t) by congruence. subst t'.
  destruct (table_paths table t L) as [_ Hsym]. apply number_words_inv in Ew. eapply table_numbered; eassumption.
Qed.
