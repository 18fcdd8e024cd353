(** * The operations the compressor makes, and what executing them gives. *)
From Coq Require Import String List NArith ZArith Bool Arith Lia Permutation Sorted.
From Verif Require Import PyBase PyStr Lib_Model Lib_Proofs D2Huff_Model D2Store_Model D2Store_Proofs Prop_D2Store D2Wire_Model Prop_D2Wire
  D2Code_Model Prop_D2Ranges D2Code_Sets D2Code_Store D2Code_Exec.
Import ListNotations.
Open Scope Z_scope.
Open Scope py_scope.

(** ** Pieces *)

Definition sep_of (k : str) : N := if str_eqb k (lit "cookie") then 59%N else 0%N.

Lemma pieces_in k v p : In p (pieces k v) -> strip is_blank p = p /\ ~ In (sep_of k) p /\ (is_bytes v -> is_bytes p).
Proof.
  unfold pieces. fold (sep_of k). intros H. apply in_map_iff in H as (q & <- & Hq). split; [apply strip_idem|]. split.
  - intros C. apply strip_in in C. pose proof (split_on_nosep (sep_of k) v) as F. rewrite Forall_forall in F. exact (F q Hq C).
  - unfold is_bytes. rewrite !Forall_forall. intros H x Hx. apply strip_in in Hx. apply H. eapply split_on_in; eauto.
Qed.

Definition all_pairs (d : hdict) : list (str * str) := flat_map (fun p => map (fun e => (fst p, e)) (pieces (fst p) (snd p))) d.

Lemma add_pair_fold l : forall acc, NoDup acc -> NoDup (fold_left add_pair l acc) /\ forall p, In p (fold_left add_pair l acc) <-> In p acc \/ In p l.
Proof.
  induction l as [|p l IH]; intros acc Hn; cbn [fold_left]; [split; [exact Hn|cbn; intuition]|].
  assert (Hn' : NoDup (add_pair acc p)). { unfold add_pair. destruct (mem_pair p acc) eqn:E; [exact Hn|]. apply NoDup_snoc; [exact Hn|]. intros C. apply mem_pair_true in C. congruence. }
  destruct (IH _ Hn') as [A B]. split; [exact A|]. intros q. rewrite B. unfold add_pair. destruct (mem_pair p acc) eqn:E.
  - apply mem_pair_true in E. cbn. split; intros [H|H]; auto; try (right; now right). destruct H as [<-|H]; auto.
  - rewrite in_app_iff. cbn. intuition.
Qed.

Lemma headers_set_ok d : NoDup (headers_set d) /\ forall p, In p (headers_set d) <-> In p (all_pairs d).
Proof. unfold headers_set. fold (all_pairs d). destruct (add_pair_fold (all_pairs d) [] (NoDup_nil _)) as [A B]. split; [exact A|]. intros p. rewrite B. cbn. intuition. Qed.

Lemma remove_pair_perm p hs : NoDup hs -> In p hs -> Permutation hs (p :: remove_pair p hs).
Proof.
  unfold remove_pair. induction hs as [|q hs IH]; [contradiction|]. intros Hn Hin. inversion Hn as [|? ? H1 H2]; subst. cbn [filter].
  destruct (pair_eq_dec q p) as [->|N].
  - apply perm_skip. assert (E : filter (fun q => if pair_eq_dec q p then false else true) hs = hs).
    { clear -H1. induction hs as [|q hs IH]; cbn; [reflexivity|]. destruct (pair_eq_dec q p) as [->|N]; [exfalso; apply H1; now left|]. f_equal. apply IH. intros C. apply H1. now right. }
    rewrite E. reflexivity.
  - destruct Hin as [E|Hin]; [congruence|]. rewrite (IH H2 Hin) at 1. apply perm_swap.
Qed.

Lemma NoDup_map_inv' {A B} (f : A -> B) l : NoDup (map f l) -> NoDup l.
Proof. apply NoDup_map_inv. Qed.

Lemma zadd_perm v s : ~ In v s -> Permutation (zadd v s) (v :: s).
Proof.
  induction s as [|x s IH]; cbn; intros H; [reflexivity|]. destruct (v <? x); [reflexivity|]. destruct (Z.eqb_spec v x) as [->|N]; [exfalso; apply H; now left|].
  rewrite IH by tauto. apply perm_swap.
Qed.

Section Make.
Context (c : cfg) (s : storage) (Hc : cfg_ok c) (Hs : sinv c s).

(** ** What stays in the group *)

Lemma keep_loop_ok : forall idxs hs done, NoDup idxs -> Forall (live s) idxs -> NoDup hs -> zsorted done ->
  exists hs' done' kept, keep_loop s idxs hs done = Ok (hs', done') /\ zsorted done' /\
  incl kept idxs /\ (forall i, In i done' <-> In i done \/ (In i idxs /\ ~ In i kept)) /\
  Permutation hs (map (kvof s) kept ++ hs') /\ forall i, In i idxs -> ~ In (kvof s i) hs'.
Proof.
  induction idxs as [|i r IH]; intros hs done Hn Hl Hh Hd; cbn [keep_loop].
  { exists hs, done, []. split; [reflexivity|]. split; [exact Hd|]. split; [apply incl_refl|]. split; [cbn; tauto|]. split; [reflexivity|contradiction]. }
  inversion Hn as [|? ? N1 N2]; inversion Hl as [|? ? L1 L2]; subst. destruct (lookup_kvof c s i Hc Hs L1) as (e & Ee & Ek). rewrite Ee. cbn [bind].
  rewrite <- Ek. destruct (mem_pair (kvof s i) hs) eqn:Em.
  - apply mem_pair_true in Em. pose proof (remove_pair_perm _ _ Hh Em) as P.
    assert (Hh' : NoDup (kvof s i :: remove_pair (kvof s i) hs)) by (eapply Permutation_NoDup; eauto). inversion Hh' as [|? ? M1 M2]; subst.
    destruct (IH (remove_pair (kvof s i) hs) done N2 L2 M2 Hd) as (hs' & done' & kept & E & Z1 & Z2 & Z3 & Z4 & Z5).
    exists hs', done', (i :: kept). split; [exact E|]. split; [exact Z1|]. split; [intros x [<-|Hx]; [now left|right; now apply Z2]|]. split; [|split].
    + intros x. rewrite Z3. cbn. split.
      * intros [H|[H1 H2]]; [now left|]. right. split; [now right|]. intros [->|C]; auto.
      * intros [H|[[->|H1] H2]]; [now left| |]; [exfalso; apply H2; now left|]. right. split; [exact H1|tauto].
    + cbn [map app]. rewrite P. now apply perm_skip.
    + intros x [<-|Hx]; [|now apply Z5]. intros C. apply M1. eapply Permutation_in; [symmetry; exact Z4|]. apply in_or_app. now right.
  - assert (Hd' : zsorted (zadd i done)) by (now apply zadd_sorted).
    destruct (IH hs (zadd i done) N2 L2 Hh Hd') as (hs' & done' & kept & E & Z1 & Z2 & Z3 & Z4 & Z5).
    exists hs', done', kept. split; [exact E|]. split; [exact Z1|]. split; [intros x Hx; right; now apply Z2|]. split; [|split].
    + intros x. rewrite Z3, zadd_In. cbn. split.
      * intros [[->|H]|[H1 H2]]; [right; split; [now left|intros C; apply N1; now apply Z2]|now left|right; split; [now right|exact H2]].
      * intros [H|[[->|H1] H2]]; auto.
    + exact Z4.
    + intros x [<-|Hx]; [|now apply Z5]. intros C. assert (In (kvof s i) hs) by (eapply Permutation_in; [symmetry; exact Z4|]; apply in_or_app; now right).
      apply mem_pair_true in H. congruence.
Qed.

(** ** Searching *)

Definition in_table (e : kv) (q : Z) : Prop := In (e, q) (l_ring (s_static s)) \/ In (e, q) (l_ring (s_lru s)).

Lemma find_exact_some r key val q : find_exact r key val = Some q -> exists e, In (e, q) r /\ kv_key e = key /\ kv_val e = val.
Proof.
  induction r as [|[e q'] r IH]; cbn; [discriminate|]. destruct (str_eqb_spec (kv_key e) key) as [Ek|Ek]; cbn [andb];
    [destruct (str_eqb_spec (kv_val e) val) as [Ev|Ev]|]; intros H; [injection H as <-; eauto| |]; destruct (IH H) as (e' & H1 & H2); eauto.
Qed.
Lemma find_loop_some r key val ke ve : find_loop r key val = (ke, ve) ->
  match ve with Some q => exists e, In (e, q) r /\ kv_key e = key /\ kv_val e = val | None => True end /\
  match ke with Some q => exists e, In (e, q) r /\ kv_key e = key | None => True end.
Proof.
  induction r as [|[e q'] r IH]; cbn [find_loop]; [intros E; injection E as <- <-; auto|].
  destruct (str_eqb_spec (kv_key e) key) as [Ek|Ek].
  - destruct (str_eqb_spec (kv_val e) val) as [Ev|Ev]; [intros E; injection E as <- <-; split; exists e; cbn; auto|].
    destruct (find_exact r key val) as [q|] eqn:Ef; intros E; injection E as <- <-.
    + apply find_exact_some in Ef as (e' & H1 & H2 & H3). split; exists e'; cbn; auto.
    + split; [exact I|]. exists e. cbn; auto.
  - intros E. destruct (IH E) as [A B]. split; [destruct ve as [q|]|destruct ke as [q|]]; auto.
    + destruct A as (e' & A1 & A2). exists e'. cbn; auto.
    + destruct B as (e' & B1 & B2). exists e'. cbn; auto.
Qed.
Lemma find_entries_some l key val ke ve : find_entries l key val = (ke, ve) ->
  match ve with Some q => exists e, In (e, q) (l_ring l) /\ kv_key e = key /\ kv_val e = val | None => True end /\
  match ke with Some q => exists e, In (e, q) (l_ring l) /\ kv_key e = key | None => True end.
Proof.
  intros E. apply find_loop_some in E as [A B]. split; [destruct ve|destruct ke]; auto; [destruct A as (e & H & A)|destruct B as (e & H & B)]; exists e; rewrite <- in_rev in H; auto.
Qed.

Lemma in_table_kvof e q : in_table e q -> live s q /\ kvof s q = (kv_key e, kv_val e).
Proof.
  intros H. pose proof Hs as [S1 S2 _ _ _]. destruct S1 as (SA & SB & SC). assert (HO : 0 <= 65 < c_max_index c) by (destruct Hc; lia). destruct H as [H|H].
  - apply In_nth_error in H as (i & Hi). pose proof (SC i _ Hi) as Eq. cbn [snd] in Eq. assert (i < length (l_ring (s_static s)))%nat by (apply nth_error_Some; congruence).
    assert (L : live s q) by (left; unfold ring_len in *; lia). split; [exact L|].
    unfold kvof, lookup_idx. rewrite SB. unfold ring_len in SB. destruct (Z.ltb_spec q 65); [|lia].
    destruct (static_lookup (s_static s) q) as (e' & E & Hin); [repeat split; auto|lia|]. rewrite E.
    apply In_nth_error in Hin as (j & Hj). pose proof (SC j _ Hj) as Ej. cbn [snd] in Ej. assert (i = j) by lia. subst j. congruence.
  - assert (L : live s q) by (right; apply in_map_iff; exists (e, q); auto). split; [exact L|]. apply In_nth_error in H as (i & Hi).
    pose proof (linv_range _ _ HO _ _ _ S2 Hi) as Hr. cbn [snd] in Hr. unfold kvof, lookup_idx. rewrite SB. destruct (Z.ltb_spec q 65); [lia|].
    pose proof (linv_lookup _ _ HO _ _ _ S2 Hi) as E. cbn [snd] in E. now rewrite E.
Qed.

Lemma find_idx_ok key val ke ve : find_entry_idx s key val = (ke, ve) ->
  match ve with Some q => live s q /\ kvof s q = (key, val) | None => True end /\
  match ke with Some q => live s q /\ fst (kvof s q) = key | None => True end.
Proof.
  unfold find_entry_idx. destruct (find_entries (s_lru s) key val) as [ke1 ve1] eqn:E1. apply find_entries_some in E1 as [A1 B1].
  destruct (find_entries (s_static s) key val) as [ke2 ve2] eqn:E2. apply find_entries_some in E2 as [A2 B2].
  assert (K : forall (l : lru) o, (l = s_lru s \/ l = s_static s) -> match o with Some q => exists e, In (e, q) (l_ring l) /\ kv_key e = key | None => True end ->
    match o with Some q => live s q /\ fst (kvof s q) = key | None => True end).
  { intros l [q|] Hl H; [|exact I]. destruct H as (e & H & He). assert (T : in_table e q) by (destruct Hl; subst l; [right|left]; exact H).
    destruct (in_table_kvof e q T) as [L ->]. split; [exact L|exact He]. }
  assert (V : forall (l : lru) o, (l = s_lru s \/ l = s_static s) -> match o with Some q => exists e, In (e, q) (l_ring l) /\ kv_key e = key /\ kv_val e = val | None => True end ->
    match o with Some q => live s q /\ kvof s q = (key, val) | None => True end).
  { intros l [q|] Hl H; [|exact I]. destruct H as (e & H & He & Hv). assert (T : in_table e q) by (destruct Hl; subst l; [right|left]; exact H).
    destruct (in_table_kvof e q T) as [L ->]. split; [exact L|congruence]. }
  destruct ve1 as [q|]; [intros E; injection E as <- <-; split; [exact (V (s_lru s) (Some q) (or_introl eq_refl) A1)|exact (K (s_lru s) ke1 (or_introl eq_refl) B1)]|].
  destruct (match ke1 with Some k => _ | None => _ end); intros E; injection E as <- <-; (split; [exact (V (s_static s) ve2 (or_intror eq_refl) A2)|]).
  - exact (K (s_lru s) ke1 (or_introl eq_refl) B1).
  - exact (K (s_static s) ke2 (or_intror eq_refl) B2).
Qed.

(** ** Operations *)

Definition ck (p : Z * str) : str * str := (fst (kvof s (fst p)), snd p).

Record mrel (P : list (str * str)) (m : mstate) : Prop := {
  mr_perm : Permutation P (map (kvof s) (m_st m ++ m_et m) ++ map ck (m_sclone m ++ m_eclone m) ++ m_skvsto m);
  mr_sorted : zsorted (m_st m);
  mr_live : Forall (live s) (m_st m ++ m_et m);
  mr_clones : Forall (fun p => live s (fst p)) (m_sclone m ++ m_eclone m) }.

Lemma make_op_ok P m p : NoDup (P ++ [p]) -> mrel P m -> mrel (P ++ [p]) (make_op c s m p).
Proof.
  intros Hn [H1 H2 H3 H4]. destruct p as [key val]. unfold make_op. destruct (find_entry_idx s key val) as [ke ve] eqn:Ef.
  destruct (find_idx_ok _ _ _ _ Ef) as [Hv Hk]. rewrite !Forall_app in H3, H4. destruct H3 as [L1 L2]. destruct H4 as [C1 C2].
  assert (PP : Permutation (P ++ [(key, val)]) ((key, val) :: P)) by (symmetry; apply Permutation_cons_append).
  destruct ve as [v|].
  - enough (G : mrel (P ++ [(key, val)]) (if c_only_e c then mk_m (m_st m) (m_et m ++ [v]) (m_sclone m) (m_eclone m) (m_skvsto m)
      else mk_m (zadd v (m_st m)) (m_et m) (m_sclone m) (m_eclone m) (m_skvsto m))) by (destruct ke; exact G).
    destruct Hv as [Lv Ev]. destruct (c_only_e c).
    + split; cbn [m_st m_et m_sclone m_eclone m_skvsto]; rewrite ?Forall_app; repeat split; auto.
      rewrite PP, H1. rewrite !map_app. cbn [map]. rewrite Ev. rewrite <- !app_assoc. cbn [app].
      rewrite (app_assoc (map (kvof s) (m_st m)) (map (kvof s) (m_et m)) ((key, val) :: _)). rewrite <- Permutation_middle. rewrite <- !app_assoc. reflexivity.
    + assert (Nv : ~ In v (m_st m)).
      { intros C. apply NoDup_remove_2 in Hn. rewrite app_nil_r in Hn. apply Hn. eapply Permutation_in; [symmetry; exact H1|].
        apply in_or_app. left. rewrite <- Ev. apply in_map. apply in_or_app. now left. }
      split; cbn [m_st m_et m_sclone m_eclone m_skvsto]; rewrite ?Forall_app; repeat split; auto.
      * rewrite PP, H1. rewrite (zadd_perm _ _ Nv). cbn [app map]. now rewrite Ev.
      * now apply zadd_sorted.
      * rewrite Forall_forall in *. intros x Hx. apply zadd_In in Hx as [->|Hx]; auto.
  - destruct ke as [k|].
    + destruct Hk as [Lk Ek]. destruct (str_eqb key (lit ":path")); split; cbn [m_st m_et m_sclone m_eclone m_skvsto]; rewrite ?Forall_app; repeat split; auto.
      * rewrite PP, H1. set (a := map (kvof s) (m_st m ++ m_et m)). rewrite !map_app. change (map ck [(k, val)]) with [(fst (kvof s k), val)]. rewrite Ek. rewrite <- !app_assoc. cbn [app].
        rewrite (app_assoc (map ck (m_sclone m)) _ ((key, val) :: _)), app_assoc. rewrite <- Permutation_middle. rewrite <- !app_assoc. apply Permutation_middle.
      * rewrite PP, H1. set (a := map (kvof s) (m_st m ++ m_et m)). rewrite !map_app. change (map ck [(k, val)]) with [(fst (kvof s k), val)]. rewrite Ek. rewrite <- !app_assoc. cbn [app].
        rewrite (app_assoc a _ ((key, val) :: _)). rewrite <- Permutation_middle. rewrite <- !app_assoc. reflexivity.
    + split; cbn [m_st m_et m_sclone m_eclone m_skvsto]; rewrite ?Forall_app; repeat split; auto.
      rewrite PP, H1. rewrite !app_assoc. rewrite <- Permutation_cons_append. reflexivity.
Qed.

Lemma make_fold_ok hs : NoDup hs -> mrel hs (fold_left (make_op c s) hs (mk_m [] [] [] [] [])).
Proof.
  induction hs as [|p hs IH] using rev_ind; intros Hn; [split; cbn; try constructor|]. rewrite fold_left_app. cbn [fold_left].
  apply make_op_ok; [exact Hn|]. apply IH. apply NoDup_remove_1 in Hn. now rewrite app_nil_r in Hn.
Qed.

End Make.
