(** * delta2's Huffman coder: the lengths of the words are the smallest possible,
    and the words are the canonical ones for these lengths. *)
From Coq Require Import List NArith ZArith QArith Bool Arith Lia ZifyN ZifyNat Permutation Sorted.
From Verif Require Import PyBase NBits Bits BB_Model BB_Spec BB_Proofs BB_Read HDHuff_Bits HDHuff_Model HDHuff_Opt Prop_HDHuff D2Huff_Model D2Huff_Proofs.
Import ListNotations.
Open Scope N_scope.
Open Scope py_scope.

(** ** Both programs build the same tree *)

Definition QN (n : N) : Q := inject_Z (Z.of_N n).

(** A tree of this program and one of headerdiff's, the weights of the first
    being the weights of the second times [k]. *)
Inductive same_tree (k : Q) : ctree -> htree -> Prop :=
| st_leaf w s p : (w == k * QN p)%Q -> same_tree k (CLeaf w s) (HLeaf p (sym_of s))
| st_node w d a b p a' b' : (w == k * QN p)%Q -> same_tree k a a' -> same_tree k b b' -> same_tree k (CNode w d a b) (HNode p a' b').

Lemma same_weight k a b : same_tree k a b -> (cweight a == k * QN (priority b))%Q.
Proof. now destruct 1. Qed.

Lemma QN_le a b : (QN a <= QN b)%Q <-> a <= b.
Proof. unfold QN. rewrite <- Zle_Qle. lia. Qed.

Lemma QN_add a b : (QN (a + b) == QN a + QN b)%Q.
Proof. unfold QN. rewrite N2Z.inj_add, inject_Z_plus. reflexivity. Qed.

Section Same.
  Variable k : Q.
  Hypothesis Hk : (0 < k)%Q.

  Lemma same_le a b a' b' : same_tree k a a' -> same_tree k b b' -> Qle_bool (cweight a) (cweight b) = (priority a' <=? priority b').
  Proof.
    intros Ha Hb. rewrite (scaled_le k _ _ _ _ Hk (same_weight _ _ _ Ha) (same_weight _ _ _ Hb)).
    destruct (N.leb_spec (priority a') (priority b')) as [H|H].
    - apply Qle_bool_iff, QN_le, H.
    - destruct (Qle_bool _ _) eqn:E; [|reflexivity]. apply Qle_bool_iff, QN_le in E. lia.
  Qed.

  Lemma same_join a a' b b' : same_tree k a a' -> same_tree k b b' -> same_tree k (join a b) (node_add a' b').
  Proof.
    intros Ha Hb. unfold join, node_add. constructor; try assumption.
    rewrite Qred_correct, (same_weight _ _ _ Ha), (same_weight _ _ _ Hb), QN_add. ring.
  Qed.

  Lemma same_take l o i n a m j : Forall2 (same_tree k) l o -> Forall2 (same_tree k) i n -> take_child l i = Ok (a, m, j) ->
    exists a' m' j', pick_node o n = Ok (a', m', j') /\ same_tree k a a' /\ Forall2 (same_tree k) m m' /\ Forall2 (same_tree k) j j'.
  Proof.
    intros Hl Hi E. unfold take_child in E. destruct Hl as [|x x' l o Hx Hl], Hi as [|y y' i n Hy Hi]; [discriminate| | |].
    - injection E as <- <- <-. do 3 eexists. repeat split; eauto.
    - injection E as <- <- <-. do 3 eexists. repeat split; eauto.
    - cbn [pick_node]. rewrite (same_le x y x' y') in E by assumption. destruct (priority x' <=? priority y'); injection E as <- <- <-.
      + do 3 eexists. repeat split; eauto.
      + do 3 eexists. repeat split; eauto.
  Qed.

  Lemma same_loop f : forall l o i n l' i', Forall2 (same_tree k) l o -> Forall2 (same_tree k) i n ->
    code_loop f l i = Ok (l', i') -> exists n', tree_loop f o n = Ok n' /\ Forall2 (same_tree k) i' n'.
  Proof.
    assert (B : forall x, (1 <? x)%nat = (2 <=? x)%nat) by reflexivity.
    induction f as [|f IH]; intros l o i n l' i' Hl Hi; cbn [code_loop tree_loop]; rewrite B, (Forall2_len _ _ _ Hl), (Forall2_len _ _ _ Hi);
      destruct (2 <=? _)%nat; intros E; try discriminate.
    - injection E as <- <-. eauto.
    - apply bind_ok in E. destruct E as ([[a m] j] & E1 & E). apply bind_ok in E. destruct E as ([[b m2] j2] & E2 & E).
      destruct (same_take _ _ _ _ _ _ _ Hl Hi E1) as (a' & m' & j' & -> & Ha & Hm & Hj). cbn [bind].
      destruct (same_take _ _ _ _ _ _ _ Hm Hj E2) as (b' & m2' & j2' & -> & Hb & Hm2 & Hj2). cbn [bind].
      eapply IH; [exact Hm2| |exact E]. apply Forall2_app; [exact Hj2|]. constructor; [now apply same_join|constructor].
    - injection E as <- <-. eauto.
  Qed.
End Same.

(** The leaves with their depths. *)
Lemma same_cld k t t' : same_tree k t t' ->
  Forall2 (fun x y => fst (fst y) = sym_of (fst x) /\ length (snd y) = snd x) (cld t) (wpaths t').
Proof.
  induction 1 as [w s p H|w d a b p a' b' H Ha IHa Hb IHb]; cbn [cld wpaths]; [repeat constructor|].
  rewrite map_app. apply Forall2_app; [revert IHa|revert IHb]; clear;
    induction 1 as [|x y l m [H1 H2] HF IH]; cbn [map]; constructor; cbn [fst snd length]; auto.
Qed.

(** ** The weights of the leaves, as whole numbers *)

(** A symbol that was never seen counts as 1/512 of an occurrence. *)
Definition weight (f : N) : N := if f =? 0 then 1 else 512 * f.

Definition hleaf (e : N * N) : htree := HLeaf (weight (snd e)) (sym_of (fst e)).

Definition factor (d : positive) : Q := (1 # (512 * d))%Q.

Lemma factor_pos d : (0 < factor d)%Q.
Proof. reflexivity. Qed.

Lemma leaf_same d e : same_tree (factor d) (leaf_of d e) (hleaf e).
Proof.
  destruct e as [s f]. cbn [leaf_of hleaf fst snd]. constructor. rewrite Qred_correct. unfold weight, QN, factor, inject_Z.
  cbn [snd]. destruct (N.eqb_spec f 0) as [->|Hf].
  - unfold Qeq, Qdiv, Qmult, Qinv. cbn. lia.
  - assert (E : (inject_Z (Z.of_N f) / inject_Z (Zpos d) == Z.of_N f # d)%Q).
    { unfold Qeq, Qdiv, Qmult, Qinv, inject_Z. cbn [Qnum Qden]. rewrite Pos.mul_1_l, Z.mul_1_r. reflexivity. }
    unfold inject_Z in E. rewrite E. unfold Qeq, Qmult. cbn [Qnum Qden]. rewrite Pos.mul_1_r, Z.mul_1_l, N2Z.inj_mul, (Pos2Z.inj_mul 512). change (Z.of_N 512) with 512%Z. ring.
Qed.

(** Sorting this program's leaves gives a list that is sorted by weight. *)
Lemma leaf_leb_weight a b : leaf_leb a b = true -> (cweight a <= cweight b)%Q.
Proof.
  unfold leaf_leb. destruct (Qeq_bool (cweight a) (cweight b)) eqn:E; intros H.
  - apply Qeq_bool_iff in E. rewrite E. apply Qle_refl.
  - now apply Qle_bool_iff.
Qed.
Lemma leaf_leb_not a b : leaf_leb a b = false -> (cweight b <= cweight a)%Q.
Proof.
  unfold leaf_leb. destruct (Qeq_bool (cweight a) (cweight b)) eqn:E; intros H.
  - apply Qeq_bool_iff in E. rewrite E. apply Qle_refl.
  - destruct (Qlt_le_dec (cweight b) (cweight a)) as [L|L]; [now apply Qlt_le_weak|]. apply Qle_bool_iff in L. congruence.
Qed.

Definition cle (a b : ctree) : Prop := (cweight a <= cweight b)%Q.

Lemma insert_leaf_perm x l : Permutation (insert_leaf x l) (x :: l).
Proof.
  induction l as [|y l IH]; cbn [insert_leaf]; [reflexivity|]. destruct (leaf_leb x y); [reflexivity|].
  etransitivity; [apply perm_skip, IH|apply perm_swap].
Qed.

Lemma sort_leaves_sorted l : StronglySorted cle (sort_leaves l).
Proof.
  induction l as [|x l IH]; cbn [sort_leaves fold_right]; [constructor|]. fold (sort_leaves l). induction IH as [|y m S IH F]; cbn [insert_leaf]; [repeat constructor|].
  destruct (leaf_leb x y) eqn:E.
  - constructor; [now constructor|]. apply leaf_leb_weight in E. constructor; [exact E|]. eapply Forall_impl; [|exact F]. unfold cle. intros; eapply Qle_trans; eauto.
  - constructor; [exact IH|]. eapply Permutation_Forall; [symmetry; apply insert_leaf_perm|]. constructor; [now apply leaf_leb_not|exact F].
Qed.

Lemma same_sorted k l o : (0 < k)%Q -> Forall2 (same_tree k) l o -> StronglySorted cle l -> psorted o.
Proof.
  intros Hk H. induction H as [|x x' l o Hx Hl IH]; intros S; [constructor|]. inversion S as [|? ? S' F]; subst. constructor; [now apply IH|].
  clear IH S S'. induction Hl as [|y y' l o Hy Hl IH]; [constructor|]. inversion F; subst. constructor; [|now apply IH].
  unfold ple. unfold cle in *. apply Qle_bool_iff in H1. rewrite (same_le k Hk x y x' y' Hx Hy) in H1. now apply N.leb_le.
Qed.

(** From the leaves of this program to those of the other. *)
Lemma sorted_same d table : exists o, Forall2 (same_tree (factor d)) (sort_leaves (map (leaf_of d) table)) o /\ Permutation o (map hleaf table).
Proof.
  assert (P : Permutation (map (leaf_of d) table) (sort_leaves (map (leaf_of d) table))) by (symmetry; apply sort_leaves_perm).
  symmetry in P. apply Permutation_map_inv in P. destruct P as (tb & E & P). exists (map hleaf tb). split.
  - rewrite E. clear. induction tb as [|e tb IH]; cbn [map]; constructor; [apply leaf_same|exact IH].
  - apply Permutation_map. now symmetry.
Qed.

(** *** The cost of a code *)
Definition cost (table : list (N * N)) (len : N -> nat) : N :=
  fold_right (fun '(s, f) n => weight f * N.of_nat (len s) + n) 0 table.

Lemma cost_pcost table len : cost table len = pcost (map (fun '(s, f) => (weight f, len s)) table).
Proof. induction table as [|[s f] l IH]; [reflexivity|]. cbn [cost fold_right map pcost]. fold (cost l len). rewrite IH. reflexivity. Qed.

Lemma leaves_hleaf table : flat_map leaves (map hleaf table) = map (fun e => (sym_of (fst e), weight (snd e))) table.
Proof. induction table as [|e l IH]; [reflexivity|]. cbn [map flat_map hleaf leaves app]. now rewrite IH. Qed.

Theorem build_optimal table d t : (2 <= length table)%nat -> NoDup (map fst table) -> build_code_tree table d = Ok t ->
  forall len, (forall s, In s (map fst table) -> In (s, len s) (cld t)) ->
  forall P, Permutation (map fst P) (map (fun e => weight (snd e)) table) -> kraft (map snd P) -> cost table len <= pcost P.
Proof.
  intros Hn ND Eb len Hlen P HP HK. unfold build_code_tree in Eb. destruct (Nat.ltb_spec (length table) 2); [lia|]. cbv zeta in Eb.
  destruct (sorted_same d table) as (o & So & Po). set (ls := sort_leaves (map (leaf_of d) table)) in *.
  apply bind_ok in Eb. destruct Eb as ([l' i'] & El & Eb). destruct l' as [|? ?]; [|discriminate].
  destruct (same_loop (factor d) (factor_pos d) _ _ _ _ _ _ _ So (Forall2_nil _) El) as (n' & En & Sn).
  assert (Lo : length ls = length o) by now apply Forall2_len in So.
  assert (Lt : length o = length table) by (rewrite (Permutation_length Po), map_length; reflexivity).
  destruct (tree_loop_ok (length ls) o []) as (t' & Et & Wt & _ & Lv & Opt).
  - split; [exact (same_sorted _ _ _ (factor_pos d) So (sort_leaves_sorted _))|]. split; [constructor|]. exists 0. split; [|constructor].
    apply Forall_forall. intros; lia.
  - cbn [length]. lia.
  - intros _. lia.
  - rewrite app_nil_r. eapply Permutation_Forall; [symmetry; exact Po|]. apply Forall_map, Forall_forall. intros e _. exact I.
  - constructor.
  - rewrite app_nil_r in *. assert (n' = [t']) by congruence. subst n'. inversion Sn as [|x ? ? ? Hx Hr]; subst. inversion Hr; subst.
    cbn [rev app] in Eb. assert (x = t) by congruence. subst x.
    assert (Lv' : Permutation (leaves t') (map (fun e => (sym_of (fst e), weight (snd e))) table)).
    { rewrite <- leaves_hleaf. etransitivity; [exact Lv|]. now apply flat_map_perm. }
    assert (Ec : cost table len = tcost t').
    { rewrite <- wsum_cost by exact Wt.
      set (f := fun e : N * N => (sym_of (fst e), weight (snd e))) in *.
      assert (NDs : NoDup (map (fun x => fst (fst x)) (wpaths t'))).
      { rewrite <- (map_map fst fst), wpaths_leaves. eapply Permutation_NoDup; [apply Permutation_map; symmetry; exact Lv'|].
        unfold f. rewrite map_map. cbn [fst]. rewrite <- (map_map fst sym_of). apply FinFun.Injective_map_NoDup; [exact sym_of_inj|exact ND]. }
      pose proof (same_cld _ _ _ Hx) as HC.
      assert (Hdepth : forall s w p, In (sym_of s, w, p) (wpaths t') -> In s (map fst table) -> length p = len s).
      { intros s w p Hin Hs. specialize (Hlen s Hs). destruct (In_nth_error _ _ Hlen) as (i & Hi).
        assert (exists y, nth_error (wpaths t') i = Some y /\ fst (fst y) = sym_of s /\ length (snd y) = len s) as (y & Hy & Y1 & Y2).
        { clear -HC Hi. revert i Hi. induction HC as [|a y l m [A1 A2] HF IH]; intros [|i] Hi; try discriminate; cbn [nth_error] in *; [|now apply IH].
          injection Hi as ->. exists y. auto. }
        apply nth_error_In in Hy. destruct y as [[y1 y2] y3]. cbn [fst snd] in *. subst y1.
        assert (y3 = p /\ y2 = w) as [-> _]; [|exact Y2].
        clear -NDs Hin Hy. induction (wpaths t') as [|z l IH]; [destruct Hin|]. cbn [map] in NDs. inversion NDs as [|? ? Hz NDs']; subst.
        destruct Hin as [-> |Hin], Hy as [Ey|Hy].
        - split; congruence.
        - exfalso. apply Hz. apply (in_map (fun x => fst (fst x))) in Hy. exact Hy.
        - subst z. exfalso. apply Hz. apply (in_map (fun x => fst (fst x))) in Hin. exact Hin.
        - now apply IH. }
      set (g := fun s : hsym => match s with Chr n => n | Num n => n end).
      assert (Hg : forall s, g (sym_of s) = s) by (intros s; unfold sym_of, g; destruct (s <? 256); reflexivity).
      assert (E1 : wsum (wpaths t') = fold_right (fun y n => snd y * N.of_nat (len (g (fst y))) + n) 0 (leaves t')).
      { rewrite <- wpaths_leaves.
        assert (Hin : forall s w p, In (s, w, p) (wpaths t') -> exists s0, s = sym_of s0 /\ In s0 (map fst table)).
        { intros s w p Hp. apply (in_map fst) in Hp. rewrite wpaths_leaves in Hp. cbn [fst] in Hp. apply (Permutation_in _ Lv') in Hp.
          unfold f in Hp. apply in_map_iff in Hp. destruct Hp as ([s0 w0] & E & Hp). cbn [fst snd] in E. exists s0. split; [congruence|].
          apply (in_map fst) in Hp. exact Hp. }
        revert Hdepth Hin. clear -Hg. induction (wpaths t') as [|[[s w] p] l IH]; intros Hd Hi; [reflexivity|].
        cbn [map fst snd wsum fold_right]. fold (wsum l). rewrite IH; [|intros; eapply Hd; [right|]; eauto|intros; eapply Hi; right; eauto].
        destruct (Hi s w p (or_introl eq_refl)) as (s0 & -> & Hs0). rewrite Hg, <- (Hd s0 w p (or_introl eq_refl) Hs0). reflexivity. }
      rewrite E1.
      assert (Ep : forall a b, Permutation a b -> fold_right (fun y n => snd y * N.of_nat (len (g (fst y))) + n) 0 a = fold_right (fun (y : hsym * N) n => snd y * N.of_nat (len (g (fst y))) + n) 0 b).
      { induction 1; cbn [fold_right]; lia. }
      rewrite (Ep _ _ Lv'). unfold f. clear -Hg. induction table as [|[s w] l IH]; [reflexivity|]. cbn [map fold_right cost fst snd]. fold (cost l len).
      rewrite IH, Hg. reflexivity. }
    rewrite Ec. specialize (Opt P). assert (F0 : fcost o = 0).
    { rewrite (fcost_perm _ _ Po). clear. induction table as [|e l IH]; [reflexivity|]. unfold fcost in *. cbn [map fold_right hleaf tcost]. rewrite IH. reflexivity. }
    rewrite F0 in Opt. apply Opt; [|exact HK]. etransitivity; [exact HP|].
    transitivity (map priority (map hleaf table)); [|now apply Permutation_map; symmetry].
    rewrite map_map. reflexivity.
Qed.

(** ** The words *)

(** A code word comes before another: it is shorter, or of the same length and
    its symbol is smaller. *)
Definition comes_before (a b : N * nat) : Prop := (snd a < snd b)%nat \/ (snd a = snd b /\ fst a < fst b).

Definition comes_beforeb (a b : N * nat) : bool := (snd a <? snd b)%nat || ((snd a =? snd b)%nat && (fst a <? fst b)).

Lemma comes_beforeb_ok a b : comes_beforeb a b = true <-> comes_before a b.
Proof.
  unfold comes_beforeb, comes_before. rewrite orb_true_iff, andb_true_iff, Nat.ltb_lt, Nat.eqb_eq, N.ltb_lt. reflexivity.
Qed.

Lemma sort_syms_sorted l : StronglySorted N.le (sort_syms l).
Proof.
  induction l as [|x l IH]; cbn [sort_syms fold_right]; [constructor|]. fold (sort_syms l). induction IH as [|y m S IH F]; cbn [insert_sym]; [repeat constructor|].
  destruct (N.leb_spec x y) as [H|H].
  - constructor; [now constructor|]. constructor; [exact H|]. eapply Forall_impl; [|exact F]. intros; lia.
  - constructor; [exact IH|]. assert (P : Permutation (insert_sym x m) (x :: m)).
    { clear. induction m as [|z m IH]; cbn [insert_sym]; [reflexivity|]. destruct (x <=? z); [reflexivity|].
      etransitivity; [apply perm_skip, IH|apply perm_swap]. }
    eapply Permutation_Forall; [symmetry; exact P|]. constructor; [lia|exact F].
Qed.

(** If the depths go up, the words are handed out in this order. *)
Lemma sched_sorted t ks : NoDup (map fst (sched t ks)) -> StronglySorted (fun a b : N * nat => (snd a <= snd b)%nat) (sched t ks) -> NoDup ks ->
  StronglySorted comes_before (sched t ks).
Proof.
  induction ks as [|k ks IH]; intros ND S NK; [constructor|]. cbn [sched flat_map] in *. fold (sched t ks) in *. inversion NK as [|? ? Hk NK']; subst.
  pose proof (sort_syms_sorted (syms_at t k)) as SS. rewrite map_app in ND.
  assert (Hks : Forall (fun x : N * nat => In (snd x) ks) (sched t ks)).
  { apply Forall_forall. intros x Hx. unfold sched in Hx. apply in_flat_map in Hx. destruct Hx as (q & Hq & Hx). apply in_map_iff in Hx. destruct Hx as (s & <- & _). exact Hq. }
  induction (sort_syms (syms_at t k)) as [|s l IHl]; cbn [map app] in *.
  - apply IH; auto.
  - inversion ND as [|? ? Hn ND']; subst. inversion S as [|? ? S' F]; subst. inversion SS as [|? ? SS' FS]; subst. constructor; [now apply IHl|].
    apply Forall_app in F. destruct F as [F1 F2]. apply Forall_app. split.
    + apply Forall_forall. intros x Hx. apply in_map_iff in Hx. destruct Hx as (s' & <- & Hs'). right. cbn [fst snd]. split; [reflexivity|].
      rewrite Forall_forall in FS. specialize (FS s' Hs'). assert (s <> s'); [|lia]. intros ->. apply Hn, in_or_app. left. rewrite map_map. cbn [fst]. now rewrite map_id.
    + apply Forall_forall. intros x Hx. rewrite Forall_forall in F2, Hks. specialize (F2 x Hx). specialize (Hks x Hx). cbn [snd] in F2.
      left. cbn [snd]. assert (snd x <> k); [|lia]. intros E. rewrite E in Hks. contradiction.
Qed.

Lemma zget_zset_same {V} (d : list (N * V)) s v : zget (zset d s v) s = Some v.
Proof.
  induction d as [|[x y] d IH]; cbn [zset zget]; [now rewrite N.eqb_refl|]. destruct (N.eqb_spec x s) as [->|E]; cbn [zget].
  - now rewrite N.eqb_refl.
  - destruct (N.eqb_spec x s); [contradiction|exact IH].
Qed.
Lemma zget_zset_other {V} (d : list (N * V)) s s' v : s <> s' -> zget (zset d s v) s' = zget d s'.
Proof.
  intros H. induction d as [|[x y] d IH]; cbn [zset zget].
  - destruct (N.eqb_spec s s'); [contradiction|reflexivity].
  - destruct (N.eqb_spec x s) as [->|E]; cbn [zget].
    + destruct (N.eqb_spec s s'); [contradiction|reflexivity].
    + now rewrite IH.
Qed.

Lemma assign_list_other l : forall next prev tab n p tab' s, assign_list l next prev tab = Ok (n, p, tab') -> ~ In s (map fst l) ->
  zget tab' s = zget tab s.
Proof.
  induction l as [|[x k] l IH]; intros next prev tab n p tab' s H Hs; cbn [assign_list] in H; [congruence|].
  destruct (k <? prev)%nat; [discriminate|]. apply bind_ok in H. destruct H as (w & _ & H). cbn [map fst In] in Hs.
  rewrite (IH _ _ _ _ _ _ s H) by tauto. apply zget_zset_other. tauto.
Qed.

(** Which number a symbol gets. *)
Lemma assign_list_value pre : forall s k post done next prev tab n p tab',
  next = ksum prev done -> Forall (fun q => (q <= prev)%nat) done ->
  NoDup (map fst (pre ++ (s, k) :: post)) ->
  assign_list (pre ++ (s, k) :: post) next prev tab = Ok (n, p, tab') ->
  exists w, zget tab' s = Some (w, ksum k (done ++ map snd pre)) /\ brep (bin_format k (ksum k (done ++ map snd pre))) = Ok w.
Proof.
  assert (G : forall k prev done, (prev <= k)%nat -> Forall (fun q => (q <= prev)%nat) done -> N.shiftl (ksum prev done) (N.of_nat (k - prev)) = ksum k done).
  { intros k prev done H Hd. rewrite N.shiftl_mul_pow2. fold (p2 (k - prev)). replace k with (prev + (k - prev))%nat at 2 by lia.
    rewrite ksum_scale by exact Hd. lia. }
  induction pre as [|[x q] pre IH]; intros s k post done next prev tab n p tab' En Hd ND H; cbn [app assign_list] in H.
  - destruct (Nat.ltb_spec k prev) as [C|C]; [discriminate|]. cbv zeta in H. apply bind_ok in H. destruct H as (w & Ew & H).
    cbn [map app fst] in ND. inversion ND as [|? ? Hn ND']; subst. rewrite G in * by assumption.
    rewrite (assign_list_other _ _ _ _ _ _ _ s H Hn), zget_zset_same. cbn [map app]. rewrite app_nil_r. eauto.
  - destruct (Nat.ltb_spec q prev) as [C|C]; [discriminate|]. cbv zeta in H. apply bind_ok in H. destruct H as (w & Ew & H). subst next. rewrite G in * by assumption.
    cbn [map app fst] in ND. inversion ND as [|? ? Hn ND']; subst.
    destruct (IH s k post (done ++ [q]) (ksum q done + 1) q (zset tab x (w, ksum q done)) n p tab') as (w' & E1 & E2); try assumption.
    + rewrite ksum_app. cbn [ksum]. rewrite Nat.sub_diag. change (p2 0) with 1. lia.
    + apply Forall_app. split; [|repeat constructor]. eapply Forall_impl; [|exact Hd]. cbn. intros; lia.
    + rewrite <- app_assoc in E1, E2. cbn [app] in E1, E2. eauto.
Qed.

(** What the words before a given one take up. *)
Definition taken (l : list (N * nat)) (x : N * nat) : N :=
  fold_right (fun y n => (if comes_beforeb y x then 2 ^ N.of_nat (snd x - snd y) else 0) + n) 0 l.

Lemma taken_perm l m x : Permutation l m -> taken l x = taken m x.
Proof. unfold taken. induction 1; cbn [fold_right]; lia. Qed.

Lemma taken_cons y l x : taken (y :: l) x = (if comes_beforeb y x then 2 ^ N.of_nat (snd x - snd y) else 0) + taken l x.
Proof. reflexivity. Qed.

Lemma not_both x y : comes_before x y -> comes_beforeb y x = false.
Proof.
  intros H. destruct (comes_beforeb y x) eqn:E; [|reflexivity]. apply comes_beforeb_ok in E. unfold comes_before in *. lia.
Qed.

Lemma taken_none l x : Forall (comes_before x) l -> taken l x = 0.
Proof. induction 1 as [|y l Hy F IH]; [reflexivity|]. now rewrite taken_cons, IH, (not_both x y Hy). Qed.

Lemma taken_prefix pre s k post : StronglySorted comes_before (pre ++ (s, k) :: post) -> taken (pre ++ (s, k) :: post) (s, k) = ksum k (map snd pre).
Proof.
  induction pre as [|y pre IH]; intros S; cbn [app map] in *; inversion S as [|? ? S' F]; subst; rewrite taken_cons.
  - rewrite (taken_none post _ F). unfold comes_beforeb. rewrite Nat.ltb_irrefl, N.ltb_irrefl, andb_false_r. reflexivity.
  - rewrite IH by exact S'. assert (Hy : comes_before y (s, k)) by (rewrite Forall_forall in F; apply F, in_or_app; right; now left).
    rewrite (proj2 (comes_beforeb_ok _ _) Hy). reflexivity.
Qed.

(** What the constructor does, once more with the lengths and the values. *)
Theorem new_huffman_words order table h : (forall t, build_loop 1024 table 1 = Ok t -> Permutation (order (depth_keys t)) (depth_keys t)) ->
  NoDup (map fst table) -> new_huffman order table = Ok h ->
  exists ws t d, (2 <= length table)%nat /\ h_codes h = map enc ws /\ build_code_tree table d = Ok t /\
    (forall s, In s (map fst table) -> In (s, length (nth (N.to_nat s) ws [])) (cld t)) /\
    (forall i w, nth_error ws i = Some w -> val_of w = taken (map (fun j => (N.of_nat j, length (nth j ws []))) (seq 0 (length ws))) (N.of_nat i, length w)).
Proof.
  intros Hord NDt H. unfold new_huffman in H. apply bind_ok in H. destruct H as (t & Et & H). apply bind_ok in H. destruct H as (can & Ec & H).
  cbv zeta in H. apply bind_ok in H. destruct H as (d & Ed & H). injection H as <-.
  specialize (Hord t Et). destruct (build_loop_inv _ _ _ _ Et) as (dv & Eb & H32).
  assert (Hn : (2 <= length table)%nat).
  { unfold build_code_tree in Eb. destruct (Nat.ltb_spec (length table) 2); [discriminate|lia]. }
  destruct (build_tree_ok table dv Hn) as (t' & Et' & Hd & H1 & Hsy). assert (t' = t) by congruence. subst t'.
  destruct (canonical_ok order t can Hd H1 Hord Ec) as (ws & Ew & Hne & Hf & Hl & Hin & Hlt). exists ws, t, dv.
  split; [exact Hn|]. split; [exact Ew|]. split; [exact Eb|].
  assert (Hsub : forall s, In s (csyms t) -> In (s, length (nth (N.to_nat s) ws [])) (cld t)).
  { intros s Hs. specialize (Hlt s Hs). unfold lenN in Hlt.
    destruct (nth_error ws (N.to_nat s)) as [w|] eqn:E; [|apply nth_error_None in E; lia].
    rewrite (nth_error_nth _ _ _ E). specialize (Hin _ _ E). now rewrite N2Nat.id in Hin. }
  split.
  { intros s Hs. apply Hsub. eapply Permutation_in; [symmetry; exact Hsy|exact Hs]. }
  intros i w Hi. set (L := map (fun j => (N.of_nat j, length (nth j ws []))) (seq 0 (length ws))).
  assert (NDc : NoDup (csyms t)) by (eapply Permutation_NoDup; [symmetry; exact Hsy|exact NDt]).
  assert (PL : Permutation L (cld t)).
  { apply NoDup_Permutation.
    - unfold L. apply FinFun.Injective_map_NoDup; [|apply seq_NoDup]. intros a b E. assert (N.of_nat a = N.of_nat b) by congruence. lia.
    - unfold csyms in NDc. now apply NoDup_map_inv in NDc.
    - intros [s k]. unfold L. rewrite in_map_iff. split.
      + intros (j & E & Hj). apply in_seq in Hj. destruct (nth_error ws j) as [v|] eqn:Ev; [|apply nth_error_None in Ev; lia].
        rewrite (nth_error_nth _ _ _ Ev) in E. rewrite <- E. now apply Hin.
      + intros Hs. assert (Hs' : In s (csyms t)) by (unfold csyms; apply (in_map fst) in Hs; exact Hs).
        exists (N.to_nat s). split; [|apply in_seq; specialize (Hlt s Hs'); unfold lenN in Hlt; lia].
        specialize (Hsub s Hs'). rewrite N2Nat.id. f_equal. unfold csyms in NDc. clear -Hs Hsub NDc.
        induction (cld t) as [|z l IH]; [destruct Hs|]. cbn [map] in NDc. inversion NDc as [|? ? Hz ND]; subst. destruct Hs as [-> |Hs], Hsub as [E|Hs2].
        * congruence.
        * exfalso. apply Hz. apply (in_map fst) in Hs2. exact Hs2.
        * subst z. exfalso. apply Hz. apply (in_map fst) in Hs. exact Hs.
        * now apply IH. }
  unfold canonical_table in Ec. apply bind_ok in Ec. destruct Ec as (tab & Ha & Ht).
  rewrite assign_all_list in Ha. apply bind_ok in Ha. destruct Ha as ([[n p] tb] & Ha & E). injection E as ->.
  set (S := sched t (order (depth_keys t))) in *. assert (HS : Permutation S (cld t)) by now apply sched_perm.
  destruct (assign_list_sorted _ _ _ _ _ Ha) as [Hs1 _].
  assert (NDS : NoDup (map fst S)) by (eapply Permutation_NoDup; [apply Permutation_map; symmetry; exact HS|exact NDc]).
  assert (NDk : NoDup (order (depth_keys t))).
  { eapply Permutation_NoDup; [symmetry; exact Hord|]. unfold depth_keys. apply NoDup_filter, seq_NoDup. }
  pose proof (sched_sorted t _ NDS Hs1 NDk) as Hs2. fold S in Hs2.
  pose proof (Hin _ _ Hi) as HiS. eapply Permutation_in in HiS; [|symmetry; exact HS].
  apply in_split in HiS. destruct HiS as (pre & post & ES). rewrite ES in *.
  destruct (assign_list_value pre (N.of_nat i) (length w) post [] 0 0%nat [] n p tab) as (wd & Ez & Ebr); [reflexivity|constructor|exact NDS|exact Ha|].
  cbn [app] in Ez, Ebr.
  assert (PT : Permutation L (pre ++ (N.of_nat i, length w) :: post)) by (etransitivity; [exact PL|symmetry; exact HS]).
  rewrite (taken_perm _ _ _ PT), (taken_prefix _ _ _ _ Hs2). set (c := ksum (length w) (map snd pre)) in *.
  (* the word in the table *)
  assert (Hcan : nth_error can i = Some (wd, c)).
  { assert (Li : (i < length ws)%nat) by (apply nth_error_Some; congruence).
    assert (Lc : length can = length ws). { apply (f_equal (@length _)) in Ew. now rewrite !map_length in Ew. }
    assert (G : forall syms r, table_list tab syms = Ok r -> length r = length syms /\ forall j s, nth_error syms j = Some s -> nth_error r j = zget tab s).
    { clear. induction syms as [|s syms IH]; intros r Hr; cbn [table_list] in Hr; [injection Hr as <-; split; [reflexivity|intros [|j] s; discriminate]|].
      destruct (zget tab s) as [e|] eqn:Es; [|discriminate]. apply bind_ok in Hr. destruct Hr as (r' & Er & Hr). injection Hr as <-.
      destruct (IH _ Er) as [IH1 IH2]. split; [cbn [length]; now rewrite IH1|]. intros [|j] x; cbn [nth_error]; [intros Ex; injection Ex as <-; now symmetry|apply IH2]. }
    destruct (G _ _ Ht) as [G1 G2]. rewrite (G2 i (N.of_nat i)); [exact Ez|]. rewrite count_up_length in G1. rewrite count_up_nth by lia. reflexivity. }
  assert (Hwd : wd = enc w).
  { apply (f_equal (fun l => nth_error l i)) in Ew. rewrite !nth_error_map, Hcan, Hi in Ew. cbn in Ew. congruence. }
  assert (Hb0 : bin_format (length w) c <> []).
  { intros Eb0. rewrite Eb0 in Ebr. discriminate. }
  rewrite brep_ok in Ebr by exact Hb0. fold (enc (bin_format (length w) c)) in Ebr. rewrite Hwd in Ebr.
  assert (Ebits : bin_format (length w) c = w).
  { assert (E : enc (bin_format (length w) c) = enc w) by congruence. unfold enc in E.
    assert (E1 : bytes_of_bits (bin_format (length w) c) = bytes_of_bits w) by congruence.
    assert (E2 : length (bin_format (length w) c) = length w) by congruence.
    pose proof (firstn_bytes_of_bits (bin_format (length w) c)) as F1. rewrite E1, E2, firstn_bytes_of_bits in F1. now symmetry. }
  rewrite <- Ebits. unfold bin_format. apply val_of_bits_small.
  eapply N.lt_le_trans; [apply N.size_gt|]. apply N.pow_le_mono_r; [discriminate|].
  assert (E : N.size c = N.of_nat (N.size_nat c)); [|lia]. clear. destruct c as [|q]; [reflexivity|]. cbn [N.size N.size_nat].
  induction q as [q IH|q IH|]; cbn [Pos.size Pos.size_nat]; lia.
Qed.
