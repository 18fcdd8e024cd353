(** * Property C94: the decoder of delta (v1) and messages made by anybody.

    The default entries, whose values are tuples, are outside the model
    (D1Code_Model): a message that names the indices 1 to 65 is left out where
    it matters. *)
From Coq Require Import String List NArith ZArith Bool Arith Lia Permutation Sorted.
From Verif Require Import PyBase PyStr Lib_Model Lib_Spec Lib_Proofs Small_Model D2Huff_Model D2Store_Model D2Code_Model D2Code_Sets D2Code_Exec D2Code_Round D2Code_Says Prop_D2Code
  D1Huff_Model D1Wire_Model Prop_D1Wire D1Code_Model D1Code_Inv D1Code_Store D1Code_Exec D1Code_Round Prop_D1Code Prop_D1Hostile.
Import ListNotations.
Open Scope Z_scope.
Open Scope py_scope.

(** ** Specification *)

(** A decoder after any messages it did not refuse. *)
Inductive heard (dk : str) (iter : list gop -> list N) (h : huffman) (maxb maxv : Z) : code1 -> Prop :=
| heard_nothing : heard dk iter h maxb maxv (code1_new dk maxb maxv)
| heard_message d ord blob d' out : heard dk iter h maxb maxv d -> (forall z, Permutation (ord z) z) ->
    decompress1 dk iter h ord d blob = Ok (d', out) -> heard dk iter h maxb maxv d'.

(** The indices toggled by an operation: a range is from its second number to its first. *)
Definition toggles (o : op1) (i : Z) : Prop :=
  match o with Toggl j => i = j | Trang j s => s <= i <= j | _ => False end.
(** There is an entry with the index. *)
Definition in_table (d : code1) (i : Z) : Prop := exists k v, In (k, v, i) (entries1 d).
(** The number of a name. *)
Definition names_name (d : code1) (i : Z) : Prop := exists k, find_kidx (t_kidx (d_store d)) i = Some k.

(** ** Proofs *)

Lemma toggled_spec o i : In i (toggled o) <-> toggles o i.
Proof.
  destruct o as [j|j s|j v|k v|k v]; cbn [toggled toggles In]; try tauto; [intuition congruence|].
  unfold xrange. rewrite in_map_iff. split.
  - intros (n & <- & Hn). apply in_seq in Hn. lia.
  - intros H. exists (Z.to_nat (i - s)). split; [lia|]. apply in_seq. lia.
Qed.

Lemma in_table_live d i : in_table d i <-> live1 d i.
Proof.
  unfold in_table, live1, entries1. split.
  - intros (k & v & H). apply in_map_iff in H as (e & E & H). exists e. split; [exact H|congruence].
  - intros (e & H & <-). exists (v_key e), (v_val e). apply in_map_iff. now exists e.
Qed.

Lemma unused_loop_ends used mn first : 0 <= mn < 2 ^ 16 -> mn <= first < 2 ^ 16 -> forall fuel idx, mn <= idx < 2 ^ 16 ->
  (2 ^ 16 - mn) - (idx - first) mod (2 ^ 16 - mn) <= Z.of_nat fuel ->
  (exists i, unused_loop fuel used mn first idx = Ok i) \/ unused_loop fuel used mn first idx = Err StandardError.
Proof.
  intros Hm Hf. set (q := 2 ^ 16 - mn). assert (Hq : 0 < q) by (unfold q; lia).
  induction fuel as [|f IH]; intros idx Hi Hle; cbn [unused_loop]; (destruct (used idx) eqn:Ei; [|eauto]).
  all: pose proof (Z.mod_pos_bound (idx - first) q Hq) as Bi.
  { exfalso. change (Z.of_nat 0) with 0 in Hle. fold q in Hle. lia. }
  cbv zeta. pose proof (next_id_range mn idx ltac:(lia) ltac:(lia)) as Rn. destruct (Z.eqb_spec (next_id mn idx) first) as [C|N]; [now right|].
  apply IH; [exact Rn|]. cut ((next_id mn idx - first) mod q = (idx - first) mod q + 1); [lia|].
  assert (E : (next_id mn idx - first) mod q = ((idx - first) mod q + 1) mod q).
  { transitivity ((idx + 1 - first) mod q).
    - unfold next_id. destruct (Z.leb_spec (2 ^ 16) (idx + 1)) as [L|L]; [|reflexivity]. replace (idx + 1 - first) with (mn - first + 1 * q) by (unfold q; lia).
      now rewrite Z.mod_add by lia.
    - replace (idx + 1 - first) with ((idx - first) + 1) by lia. now rewrite Z.add_mod_idemp_l by lia. }
  destruct (Z.eq_dec ((idx - first) mod q + 1) q) as [Eq|Nq]; [|rewrite E; apply Z.mod_small; lia].
  exfalso. rewrite Eq, Z.mod_same in E by lia. apply N.
  pose proof (Z.div_mod (next_id mn idx - first) q ltac:(lia)) as D. rewrite E in D.
  assert (- q < next_id mn idx - first < q) by (unfold q; lia). assert ((next_id mn idx - first) / q = 0) by nia. lia.
Qed.
Lemma unused_id_ends used mn next : 0 <= mn < 2 ^ 16 -> mn <= next < 2 ^ 16 ->
  (exists i, unused_id used mn next = Ok i) \/ unused_id used mn next = Err StandardError.
Proof.
  intros Hm Hn. unfold unused_id. cbv zeta. pose proof (next_id_range mn next ltac:(lia) ltac:(lia)) as R.
  apply unused_loop_ends; try assumption. rewrite Z.sub_diag, Z.mod_0_l by lia. rewrite Z2Nat.id; lia.
Qed.

Definition refused {A} (r : res A) : Prop := r = Err NameError \/ r = Err StandardError.

Section State.
Context (dk : str) (iter : list gop -> list N) (Hiter : visits iter).

Lemma add_key_outcome c k : inv1 dk c -> (exists c', find_or_add_key dk c k = Ok c') \/ refused (find_or_add_key dk c k).
Proof.
  intros I. unfold find_or_add_key. destruct (find_key (t_keys (d_store c)) k); [eauto|].
  destruct (make_space_ok dk None c (Z.of_nat (length k)) 0 I) as [(c1 & E1 & I1 & K1 & _)|[E1 _]]; rewrite E1; cbn [bind]; [|right; now left].
  destruct (unused_id_ends (fun i => match find_kidx (t_kidx (d_store c1)) i with Some _ => true | None => false end) 0 (t_kid (d_store c1))) as [[i E]|E];
    [lia|apply I1|rewrite E; cbn [bind]; eauto|rewrite E; cbn [bind]; right; now right].
Qed.

Lemma store_pair_outcome gid c p z : inv1 dk c -> gget (d_groups c) gid = Some z -> (exists c', store_pair dk gid c p = Ok c') \/ refused (store_pair dk gid c p).
Proof.
  destruct p as [k v]. intros I Hg. unfold store_pair. destruct (add_key_outcome c k I) as [[c1 E1]|[E1|E1]]; rewrite E1; cbn [bind]; [|right; now left|right; now right].
  destruct (find_or_add_key_ok dk c k c1 I E1) as (I1 & S1 & _). destruct (find_val (t_lru (d_store c1)) k v); [eauto|].
  destruct (make_space_ok dk (Some k) c1 (Z.of_nat (length v)) 1 I1) as [(c2 & E2 & I2 & K2 & S2 & _)|[E2 _]]; rewrite E2; cbn [bind]; [|right; now left].
  destruct (unused_id_ends (lru_used (t_lru (d_store c2))) n_defaults (t_lid (d_store c2))) as [[i E]|E]; [unfold n_defaults; lia|apply I2| |];
    rewrite E; cbn [bind]; [|right; now right]. left. unfold do_toggle. cbn [d_store t_lru d_groups]. unfold look.
  destruct (find_idx (t_lru (d_store c2) ++ [mk_ve i k v []]) i) as [e|] eqn:Ef.
  - cbn [bind]. assert (Hs12 : smaller (d_groups c) (d_groups c2)) by (eapply smaller_trans; eauto). specialize (Hs12 gid). rewrite Hg in Hs12.
    destruct (gget (d_groups c2) gid); [eauto|contradiction].
  - exfalso. apply (find_idx_none _ _ Ef (mk_ve i k v [])); [apply in_or_app; right; now left|reflexivity].
Qed.

Lemma renumber_outcome gid c i : inv1 dk c -> member c gid i -> (exists c', renumber iter gid c i = Ok c') \/ renumber iter gid c i = Err StandardError.
Proof.
  intros [T G] (e & He & Hi & Hd). pose proof T as [T1 T2 T3 T4 T5 T6 T7 T8 T9]. unfold renumber. cbv zeta.
  destruct (live1_look c i T1) as (e' & El & He' & Hi'); [exists e; auto|]. assert (e' = e) by (apply (nodup_map_eq v_idx _ _ _ T1 He' He); congruence). subst e'.
  rewrite El. cbn [bind]. clear El He' Hi'.
  assert (Hids : forall id, In id (iter (v_hist e)) <-> In id (gels (v_hist e))).
  { intros id. split; apply Permutation_in; [|symmetry]; apply Hiter. }
  destruct (sync_remove _ _ e (iter (v_hist e)) G T1 He Hids) as (g' & Eg & Sg & Gg). rewrite Hi in Eg, Gg, Sg. rewrite Eg. cbn [bind].
  destruct (unused_id_ends (lru_used (filter (fun e => negb (v_idx e =? i)) (t_lru (d_store c)))) n_defaults (t_lid (d_store c))) as [[n E]|E];
    [unfold n_defaults; lia|exact T3| |]; rewrite E; cbn [bind]; [left|now right].
  set (gl := last (iter (v_hist e)) gid).
  assert (Hgl : In gl (gels (v_hist e))).
  { apply Hids. apply last_in. intros C. rewrite C in Hids. apply (Hids gid) in Hd. contradiction. }
  rewrite Gg. destruct (gget (d_groups c) gl) as [z|] eqn:Ez; [eauto|]. exfalso. exact (sy_dom _ _ G e gl He Hgl Ez).
Qed.

Lemma renumber_all_outcome gid is : forall c, NoDup is -> inv1 dk c -> Forall (member c gid) is ->
  (exists c', renumber_all iter gid c is = Ok c') \/ renumber_all iter gid c is = Err StandardError.
Proof.
  induction is as [|i is IH]; intros c Hn I Hm; cbn [renumber_all]; [eauto|].
  inversion Hn as [|? ? N1 N2]; inversion Hm as [|? ? M1 M2]; subst. destruct (renumber_outcome gid c i I M1) as [(c1 & E1)|E1]; rewrite E1; cbn [bind]; [|now right].
  destruct (renumber_ok dk iter Hiter gid c i c1 I M1 E1) as (I1 & S1 & Mem & _). apply IH; [exact N2|exact I1|].
  rewrite Forall_forall in *. intros j Hj. apply Mem; [intros ->; contradiction|auto].
Qed.
Lemma adjust_outcome gid c z : inv1 dk c -> gget (d_groups c) gid = Some z -> (exists c', adjust1 iter c gid = Ok c') \/ adjust1 iter c gid = Err StandardError.
Proof. intros I Hg. unfold adjust1. rewrite Hg. destruct (group_members dk c gid z I Hg) as [A B]. now apply renumber_all_outcome. Qed.

(** What a run of the table's methods keeps. *)
Record kept (c c' : code1) (gid : N) : Prop := {
  kp_inv : inv1 dk c';
  kp_group : exists z, gget (d_groups c') gid = Some z;
  kp_max : t_maxv (d_store c') = t_maxv (d_store c);
  kp_few : (length (t_lru (d_store c')) <= length (t_lru (d_store c)))%nat \/ Z.of_nat (length (t_lru (d_store c'))) <= Z.max 1 (t_maxv (d_store c)) }.

Lemma store_pairs_kept gid ps : forall c z, inv1 dk c -> gget (d_groups c) gid = Some z ->
  (exists c', store_pairs dk gid c ps = Ok c' /\ kept c c' gid) \/ refused (store_pairs dk gid c ps).
Proof.
  induction ps as [|[k v] r IH]; intros c z I Hg; cbn [store_pairs].
  { left. exists c. split; [reflexivity|]. split; [exact I|eauto|reflexivity|left; lia]. }
  destruct (store_pair_outcome gid c (k, v) z I Hg) as [[c1 E1]|[E1|E1]]; rewrite E1; cbn [bind]; [|right; now left|right; now right].
  destruct (store_pair_ok dk gid c k v c1 z I Hg E1) as (I1 & G1 & V1 & _ & _ & _ & _ & L1). destruct (grown_get _ _ _ _ _ _ G1 Hg) as [z1 Hg1].
  destruct (IH c1 z1 I1 Hg1) as [(c2 & E2 & [I2 G2 V2 L2])|R]; [left|now right]. exists c2. split; [exact E2|]. split; [exact I2|exact G2|congruence|].
  rewrite V1 in L2. lia.
Qed.

(** Every operation's indices and numbers are known. *)
Definition known_op (c : code1) (o : op1) : Prop :=
  (forall i, In i (toggled o) -> live1 c i) /\ match o with Clone i _ => known (d_store c) (i, []) | _ => True end.

Lemma known_same c c' o : same_but_hist (d_store c) (d_store c') -> known_op c o -> known_op c' o.
Proof.
  intros S [A B]. split; [intros i Hi; apply (same_live c c' i S); auto|]. destruct o; auto. unfold known in *. cbn [fst] in *. now rewrite (sb_kidx _ _ S).
Qed.

Lemma exec_known gid ops : forall c z hd later, inv1 dk c -> gget (d_groups c) gid = Some z -> Forall (known_op c) ops ->
  exists c' z' hd' later', exec_ops1 c gid hd later ops = Ok (c', hd', later') /\ inv1 dk c' /\ gget (d_groups c') gid = Some z' /\ same_but_hist (d_store c) (d_store c').
Proof.
  induction ops as [|o r IH]; intros c z hd later I Hg Ho; [eexists c, z, hd, later; split; [reflexivity|]; split; [exact I|]; split; [exact Hg|apply same_refl]|].
  inversion Ho as [|? ? [H1 H2] H3]; subst. destruct o as [i|i s|i v|k v|k v]; cbn [exec_ops1].
  - destruct (do_toggle_ok dk c gid i z I Hg) as (c1 & E1 & I1 & S1 & G1); [apply H1; now left|]. rewrite E1. cbn [bind].
    destruct (IH c1 (ztoggle i z) hd later I1) as (c2 & z2 & hd2 & l2 & E2 & I2 & G2 & S2); [rewrite G1; apply gget_gset|eapply Forall_impl; [intros ?; apply (known_same _ _ _ S1)|exact H3]|].
    rewrite E2. eexists _, _, _, _. split; [reflexivity|]. split; [exact I2|]. split; [exact G2|eapply same_trans; eauto].
  - destruct (do_toggles_ok dk gid (xrange s (i + 1)) c z I Hg) as (c1 & E1 & I1 & S1 & G1); [apply Forall_forall; exact H1|]. rewrite E1. cbn [bind].
    destruct (IH c1 (zsymdiff z (xrange s (i + 1))) hd later I1) as (c2 & z2 & hd2 & l2 & E2 & I2 & G2 & S2); [rewrite G1; apply gget_gset|eapply Forall_impl; [intros ?; apply (known_same _ _ _ S1)|exact H3]|].
    rewrite E2. eexists _, _, _, _. split; [reflexivity|]. split; [exact I2|]. split; [exact G2|eapply same_trans; eauto].
  - unfold known in H2. cbn [fst] in H2. destruct (find_kidx (t_kidx (d_store c)) i) as [k|]; [|congruence]. eapply IH; eauto.
  - eapply IH; eauto.
  - eapply IH; eauto.
Qed.

Lemma exec_unknown_clone gid ops : forall c z hd later, inv1 dk c -> gget (d_groups c) gid = Some z -> Forall (fun o => forall i, In i (toggled o) -> live1 c i) ops ->
  ~ Forall (known_op c) ops -> exec_ops1 c gid hd later ops = Err AttributeError.
Proof.
  induction ops as [|o r IH]; intros c z hd later I Hg Ho Hn; [exfalso; apply Hn; constructor|]. inversion Ho as [|? ? H1 H3]; subst.
  assert (R : forall c1, same_but_hist (d_store c) (d_store c1) -> match o with Clone i _ => known (d_store c) (i, []) | _ => True end ->
     Forall (fun o => forall i, In i (toggled o) -> live1 c1 i) r /\ ~ Forall (known_op c1) r).
  { intros c1 S K. split.
    - eapply Forall_impl; [|exact H3]. cbv beta. intros a Ha i Hi. apply (same_live c c1 i S). auto.
    - intros C. apply Hn. constructor; [split; [exact H1|exact K]|]. rewrite Forall_forall in *. intros a Ha. specialize (C a Ha). split; [now apply H3|].
      destruct C as [_ C]. destruct a; auto. unfold known in *. cbn [fst] in *. now rewrite (sb_kidx _ _ S) in C. }
  destruct o as [i|i s|i v|k v|k v]; cbn [exec_ops1].
  - destruct (do_toggle_ok dk c gid i z I Hg) as (c1 & E1 & I1 & S1 & G1); [apply H1; now left|]. rewrite E1. cbn [bind].
    destruct (R c1 S1 Logic.I) as [R1 R2]. apply (IH c1 (ztoggle i z)); try assumption. rewrite G1. apply gget_gset.
  - destruct (do_toggles_ok dk gid (xrange s (i + 1)) c z I Hg) as (c1 & E1 & I1 & S1 & G1); [apply Forall_forall; exact H1|]. rewrite E1. cbn [bind].
    destruct (R c1 S1 Logic.I) as [R1 R2]. apply (IH c1 (zsymdiff z (xrange s (i + 1)))); try assumption. rewrite G1. apply gget_gset.
  - destruct (find_kidx (t_kidx (d_store c)) i) as [k|] eqn:F; [|reflexivity]. destruct (R c (same_refl _)) as [R1 R2]; [unfold known; cbn [fst]; congruence|].
    apply (IH c z); assumption.
  - destruct (R c (same_refl _) Logic.I) as [R1 R2]. apply (IH c z); assumption.
  - destruct (R c (same_refl _) Logic.I) as [R1 R2]. apply (IH c z); assumption.
Qed.

Lemma append_dead c idxs : inv1 dk c -> (exists i, In i idxs /\ ~ live1 c i) -> Forall (fun i => is_default i = false) idxs ->
  forall hd, append_on (t_lru (d_store c)) hd idxs = Err AttributeError.
Proof.
  intros I. induction idxs as [|j r IH]; intros (i & Hi & Hd) F hd; [contradiction|]. inversion F as [|? ? F1 F2]; subst. cbn [append_on]. unfold look.
  destruct (find_idx (t_lru (d_store c)) j) as [e|] eqn:E; cbn [bind].
  - apply IH; [|exact F2]. destruct Hi as [->|Hi]; [|eauto]. exfalso. apply Hd. apply find_idx_some in E as [E1 E2]. now exists e.
  - rewrite F1. reflexivity.
Qed.
End State.

Lemma find_make_some g gid : exists z, gget (find_or_make g gid) gid = Some z.
Proof. unfold find_or_make. destruct (gget g gid) as [z|] eqn:E; [eauto|]. exists []. now rewrite gget_gset_case, N.eqb_refl. Qed.
Lemma find_make_twice g gid : find_or_make (find_or_make g gid) gid = find_or_make g gid.
Proof. destruct (find_make_some g gid) as [z E]. unfold find_or_make at 1. now rewrite E. Qed.

Lemma execute_outcome dk iter ord c ops gid : visits iter -> (forall z, Permutation (ord z) z) -> inv1 dk c ->
  (forall o i, In o ops -> toggles o i -> ~ 1 <= i <= 65) ->
  let run := let* (c, hd) := execute1 dk ord (mk_code1 (d_store c) (find_or_make (d_groups c) gid)) ops gid in let* c := adjust1 iter c gid in Ok (c, hd) in
  (Forall (known_op c) ops -> (exists c' hd, run = Ok (c', hd) /\ kept dk c c' gid) \/ refused run) /\
  (~ Forall (known_op c) ops -> run = Err AttributeError).
Proof.
  intros Hi Ho I Hd run. set (c0 := mk_code1 (d_store c) (find_or_make (d_groups c) gid)) in *.
  assert (I0 : inv1 dk c0) by (split; [apply I|apply sync_find, I]).
  destruct (find_make_some (d_groups c) gid) as [z Hz].
  assert (SB : same_but_hist (d_store c) (d_store c0)) by apply same_refl.
  assert (K : Forall (known_op c) ops <-> Forall (known_op c0) ops).
  { split; intros H; (eapply Forall_impl; [|exact H]); intros o; apply known_same; apply same_refl. }
  assert (X : execute1 dk ord c0 ops gid = let* hd := append_on (t_lru (d_store c0)) [] (ord (zsymdiff (toggle_set ops) z)) in
     let* (ch, later) := exec_ops1 c0 gid hd [] ops in let (c, hd) := ch : code1 * hdict in let* c := store_pairs dk gid c later in Ok (c, cookie_nul hd)).
  { unfold execute1. cbv zeta. change (d_groups c0) with (find_or_make (d_groups c) gid). rewrite find_make_twice. unfold cur_of. rewrite Hz. reflexivity. }
  subst run. cbv zeta. rewrite X. clear X.
  destruct (toggle_set_ok ops) as [TS TI]. pose proof (sy_sorted _ _ (in_g _ _ I0) gid z Hz) as Sz.
  assert (On : forall i, In i (ord (zsymdiff (toggle_set ops) z)) <-> (In i (flat_map toggled ops) /\ ~ In i z) \/ (~ In i (flat_map toggled ops) /\ In i z)).
  { intros i. split.
    - intros H. apply (Permutation_in _ (Ho _)) in H. rewrite zsymdiff_In in H by (now apply zsorted_NoDup). rewrite TI in H. tauto.
    - intros H. apply (Permutation_in _ (Permutation_sym (Ho _))). rewrite zsymdiff_In by (now apply zsorted_NoDup). rewrite TI. tauto. }
  assert (Zl : forall i, In i z -> live1 c0 i) by (intros i H; apply (sy_in _ _ (in_g _ _ I0) gid z Hz) in H as (e & He & E & _); now exists e).
  assert (Dec : forall i, {live1 c0 i} + {~ live1 c0 i}).
  { intros i. destruct (in_dec Z.eq_dec i (map v_idx (t_lru (d_store c0)))) as [H|H]; [left|right].
    - apply in_map_iff in H as (e & E & H). now exists e.
    - intros (e & He & E). apply H. rewrite <- E. now apply in_map. }
  destruct (Forall_Exists_dec (live1 c0) Dec (flat_map toggled ops)) as [L|D].
  - assert (Lon : Forall (live1 c0) (ord (zsymdiff (toggle_set ops) z))).
    { apply Forall_forall. intros i H. apply On in H as [[H _]|[_ H]]; [rewrite Forall_forall in L; auto|auto]. }
    rewrite (append_on_ok dk c0 _ I0 Lon). cbn [bind].
    assert (L' : Forall (fun o => forall i, In i (toggled o) -> live1 c0 i) ops).
    { apply Forall_forall. intros o Hop i Hio. rewrite Forall_forall in L. apply L. apply in_flat_map. eauto. }
    split.
    + intros F. apply K in F.
      destruct (exec_known dk gid ops c0 z (fold_left app2 (map (kv1 (t_lru (d_store c0))) (ord (zsymdiff (toggle_set ops) z))) []) [] I0 Hz F) as (c1 & z1 & hd1 & l1 & E1 & I1 & G1 & S1).
      rewrite E1. cbn [bind]. destruct (store_pairs_kept dk gid l1 c1 z1 I1 G1) as [(c2 & E2 & [I2 [z2 G2] V2 N2])|[R|R]]; rewrite ?E2, ?R; cbn [bind]; [|right; now left|right; now right].
      destruct (adjust_outcome dk iter Hi gid c2 z2 I2 G2) as [[c3 E3]|E3]; rewrite E3; cbn [bind]; [left|right; now right].
      destruct (adjust1_ok dk iter Hi gid c2 c3 z2 I2 G2 E3) as (I3 & Sm & _ & _ & _ & V3 & _ & Le). eexists _, _. split; [reflexivity|].
      assert (Ln : length (t_lru (d_store c1)) = length (t_lru (d_store c))).
      { pose proof (sb_lru _ _ S1) as Q. apply (f_equal (@length _)) in Q. rewrite !map_length in Q. exact Q. }
      pose proof (sb_maxv _ _ S1) as V1. split; [exact I3| | |].
      * specialize (Sm gid). rewrite G2 in Sm. destruct (gget (d_groups c3) gid) as [z3|]; [eauto|contradiction].
      * rewrite V3, V2, V1. reflexivity.
      * change (t_maxv (d_store c0)) with (t_maxv (d_store c)) in V1. rewrite Le, <- Ln, <- V1. exact N2.
    + intros F. rewrite (exec_unknown_clone dk gid ops c0 z); [reflexivity|exact I0|exact Hz|exact L'|]. intros C. apply F. now apply K.
  - assert (A : append_on (t_lru (d_store c0)) [] (ord (zsymdiff (toggle_set ops) z)) = Err AttributeError).
    { apply (append_dead dk c0 _ I0).
      - apply Exists_exists in D as (i & Hi1 & Hi2). exists i. split; [|exact Hi2]. apply On. left. split; [exact Hi1|]. intros C. apply Hi2. auto.
      - apply Forall_forall. intros i H. unfold is_default, n_defaults. destruct (Z.leb_spec 1 i), (Z.leb_spec i 65); try reflexivity. exfalso.
        apply On in H as [[H _]|[_ H]].
        + apply in_flat_map in H as (o & H2 & H3). apply toggled_spec in H3. exact (Hd o i H2 H3 (conj H0 H1)).
        + apply Zl in H as (e & He & <-). pose proof (ti_range _ _ (in_t _ _ I0) e He) as R. unfold n_defaults in R. lia. }
    rewrite A. cbn [bind]. split; [|reflexivity].
    intros F. exfalso. apply K in F. apply Exists_exists in D as (i & Hi1 & Hi2). apply in_flat_map in Hi1 as (o & H2 & H3).
    rewrite Forall_forall in F. apply Hi2. apply (F o H2). exact H3.
Qed.

(** A message that was not refused toggles no default entry. *)
Lemma append_all_live c idxs : forall hd hd', append_on (t_lru (d_store c)) hd idxs = Ok hd' -> Forall (live1 c) idxs.
Proof.
  induction idxs as [|j r IH]; intros hd hd' E; [constructor|]. cbn [append_on] in E. unfold look in E.
  destruct (find_idx (t_lru (d_store c)) j) as [e|] eqn:F; cbn [bind] in E.
  - apply find_idx_some in F as [F1 F2]. constructor; [now exists e|eauto].
  - destruct (is_default j); discriminate.
Qed.

Lemma ok_no_default dk iter h ord c blob c' out gid ops : (forall z, Permutation (ord z) z) -> inv1 dk c ->
  decompress1 dk iter h ord c blob = Ok (c', out) -> from_wire1 h blob = Ok (gid, ops) -> forall o i, In o ops -> toggles o i -> ~ 1 <= i <= 65.
Proof.
  intros Ho I E W o i Hin Ht R. unfold decompress1 in E. rewrite W in E. cbn [bind] in E.
  set (c0 := mk_code1 (d_store c) (find_or_make (d_groups c) gid)) in *.
  assert (I0 : inv1 dk c0) by (split; [apply I|apply sync_find, I]). destruct (find_make_some (d_groups c) gid) as [z Hz].
  destruct (execute1 dk ord c0 ops gid) as [[c1 hd]|] eqn:X; [|discriminate]. unfold execute1 in X. cbv zeta in X.
  change (d_groups c0) with (find_or_make (d_groups c) gid) in X. rewrite find_make_twice in X. unfold cur_of in X. rewrite Hz in X. cbn [d_store] in X.
  destruct (append_on (t_lru (d_store c0)) [] (ord (zsymdiff (toggle_set ops) z))) as [hd1|] eqn:A; [|discriminate].
  apply append_all_live in A. rewrite Forall_forall in A.
  assert (Nl : ~ live1 c0 i) by (intros (e & He & <-); pose proof (ti_range _ _ (in_t _ _ I0) e He) as Q; unfold n_defaults in Q; lia).
  apply Nl, A. destruct (toggle_set_ok ops) as [TS TI]. apply (Permutation_in _ (Permutation_sym (Ho _))).
  rewrite zsymdiff_In by (apply zsorted_NoDup; try exact TS; exact (sy_sorted _ _ (in_g _ _ I0) gid z Hz)). rewrite TI.
  assert (In i (flat_map toggled ops)) by (apply in_flat_map; exists o; split; [exact Hin|now apply toggled_spec]).
  assert (~ In i z) by (intros C; apply (sy_in _ _ (in_g _ _ I0) gid z Hz) in C as (e & He & Ei & _); apply Nl; now exists e). tauto.
Qed.

Definition refers (c : code1) (ops : list op1) : Prop :=
  (forall o i, In o ops -> toggles o i -> in_table c i) /\ (forall i v, In (Clone i v) ops -> names_name c i).
Lemma refers_known c ops : refers c ops <-> Forall (known_op c) ops.
Proof.
  rewrite Forall_forall. unfold refers, known_op, names_name, known. cbn [fst]. split.
  - intros [A B] o Ho. split; [intros i Hi; apply in_table_live, (A o); [exact Ho|now apply toggled_spec]|]. destruct o as [j|j s|j v|k v|k v]; auto.
    destruct (B j v Ho) as [k ->]. discriminate.
  - intros A. split; [intros o i Ho Hi; apply in_table_live, (A o Ho); now apply toggled_spec|]. intros i v Ho. specialize (A _ Ho) as [_ A].
    cbv beta iota in A. destruct (find_kidx (t_kidx (d_store c)) i) as [k|]; [eauto|congruence].
Qed.

Lemma decompress_outcome dk iter h ord c blob gid ops : visits iter -> (forall z, Permutation (ord z) z) -> inv1 dk c ->
  from_wire1 h blob = Ok (gid, ops) -> (forall o i, In o ops -> toggles o i -> ~ 1 <= i <= 65) ->
  (refers c ops -> (exists c' hd, decompress1 dk iter h ord c blob = Ok (c', hd) /\ kept dk c c' gid) \/ refused (decompress1 dk iter h ord c blob)) /\
  (~ refers c ops -> decompress1 dk iter h ord c blob = Err AttributeError).
Proof.
  intros Hi Ho I W Hd. rewrite refers_known. unfold decompress1. rewrite W. cbn [bind]. exact (execute_outcome dk iter ord c ops gid Hi Ho I Hd).
Qed.

Lemma refers_dec c ops : {refers c ops} + {~ refers c ops}.
Proof.
  assert (D : {Forall (known_op c) ops} + {~ Forall (known_op c) ops}).
  { apply Forall_dec. intros o.
    assert (L : {forall i, In i (toggled o) -> live1 c i} + {~ forall i, In i (toggled o) -> live1 c i}).
    { destruct (Forall_dec (fun i => In i (map v_idx (t_lru (d_store c)))) (fun i => in_dec Z.eq_dec i _) (toggled o)) as [F|F]; [left|right].
      - intros i Hi. rewrite Forall_forall in F. specialize (F i Hi). apply in_map_iff in F as (e & E & H). now exists e.
      - intros C. apply F. apply Forall_forall. intros i Hi. destruct (C i Hi) as (e & H & <-). now apply in_map. }
    destruct L as [L|L]; [|right; intros [C _]; auto]. unfold known_op.
    destruct o as [j|j s|j v|k v|k v]; try (left; split; [exact L|exact Logic.I]). unfold known. cbn [fst].
    destruct (find_kidx (t_kidx (d_store c)) j); [left; split; [exact L|discriminate]|right; intros [_ C]; congruence]. }
  destruct D as [D|D]; [left|right]; now rewrite refers_known.
Qed.

Lemma heard_inv dk iter h maxb maxv d : visits iter -> heard dk iter h maxb maxv d ->
  inv1 dk d /\ t_maxv (d_store d) = maxv /\ Z.of_nat (length (t_lru (d_store d))) <= Z.max 1 maxv.
Proof.
  intros Hi H. induction H as [|d ord blob d' out H (I & V & L) Ho E]; [split; [apply inv1_new|cbn; split; [reflexivity|lia]]|].
  destruct (from_wire1 h blob) as [[gid ops]|e] eqn:W; [|unfold decompress1 in E; rewrite W in E; discriminate].
  destruct (decompress_outcome dk iter h ord d blob gid ops Hi Ho I W (ok_no_default _ _ _ _ _ _ _ _ _ _ Ho I E W)) as [P Q].
  destruct (refers_dec d ops) as [R|R]; [|rewrite (Q R) in E; discriminate].
  destruct (P R) as [(c1 & hd & E1 & [K1 K2 K3 K4])|[X|X]]; [|congruence|congruence].
  rewrite E in E1. injection E1 as <- <-. split; [exact K1|]. split; [congruence|]. rewrite V in K4. lia.
Qed.

(** ** C94 *)

(** Whatever the decoder has been sent and has not refused: it holds no more
    entries than the configured number (or one), no pair twice, no index twice,
    indices from 66 to 65535; the headers that are on in a group are entries. *)
Theorem C94_table : forall dk iter h maxb maxv d, visits iter -> heard dk iter h maxb maxv d ->
  Z.of_nat (length (entries1 d)) <= Z.max 1 maxv /\
  NoDup (map (fun e => fst e) (entries1 d)) /\ NoDup (map (fun e => snd e) (entries1 d)) /\
  (forall i, in_table d i -> 66 <= i <= 65535) /\
  (forall gid z, gget (d_groups d) gid = Some z -> NoDup z /\ forall i, In i z -> in_table d i).
Proof.
  intros dk iter h maxb maxv d Hi H. destruct (heard_inv _ _ _ _ _ _ Hi H) as (I & V & L). destruct I as [[T1 T2 T3 T4 T5 T6 T7 T8 T9] G].
  unfold entries1. rewrite map_length, !map_map. split; [exact L|]. split; [exact T4|]. split; [exact T1|]. split.
  - intros i Hl. apply in_table_live in Hl as (e & He & <-). specialize (T2 e He). unfold n_defaults in T2. lia.
  - intros gid z Hz. split; [apply zsorted_NoDup; exact (sy_sorted _ _ G gid z Hz)|]. intros i Hz'. apply in_table_live.
    apply (sy_in _ _ G gid z Hz) in Hz' as (e & He & E & _). now exists e.
Qed.
Print Assumptions C94_table.

(** A message whose operations name what the decoder has is decoded, or refused
    for want of room (NameError) or of numbers (StandardError); a message that
    toggles an index without an entry, or uses the number of no name, raises
    AttributeError. *)
Theorem C94_names : forall dk iter h maxb maxv d ord blob gid ops, visits iter -> heard dk iter h maxb maxv d -> (forall z, Permutation (ord z) z) ->
  from_wire1 h blob = Ok (gid, ops) -> (forall o i, In o ops -> toggles o i -> ~ 1 <= i <= 65) ->
  ((forall o i, In o ops -> toggles o i -> in_table d i) /\ (forall i v, In (Clone i v) ops -> names_name d i) ->
     (exists d' out, decompress1 dk iter h ord d blob = Ok (d', out)) \/ decompress1 dk iter h ord d blob = Err NameError \/ decompress1 dk iter h ord d blob = Err StandardError) /\
  (~ ((forall o i, In o ops -> toggles o i -> in_table d i) /\ (forall i v, In (Clone i v) ops -> names_name d i)) ->
     decompress1 dk iter h ord d blob = Err AttributeError).
Proof.
  intros dk iter h maxb maxv d ord blob gid ops Hi H Ho W Hd. destruct (heard_inv _ _ _ _ _ _ Hi H) as (I & _ & _).
  destruct (decompress_outcome dk iter h ord d blob gid ops Hi Ho I W Hd) as [P Q]. split; [|exact Q]. intros R.
  destruct (P R) as [(c1 & hd & E1 & _)|[X|X]]; eauto.
Qed.
Print Assumptions C94_names.

(** Any octets: decoded, or one of four exceptions, or a message that toggles a default entry. *)
Theorem C94_any_octets : forall dk iter table h maxb maxv d ord blob, visits iter -> d1_huffman table = Ok h -> (length table <= 257)%nat ->
  heard dk iter h maxb maxv d -> (forall z, Permutation (ord z) z) -> is_bytes blob ->
  (exists r, decompress1 dk iter h ord d blob = Ok r) \/
  (exists e, decompress1 dk iter h ord d blob = Err e /\ In e [StandardError; KeyError; AttributeError; NameError]) \/
  (exists gid ops o i, from_wire1 h blob = Ok (gid, ops) /\ In o ops /\ toggles o i /\ 1 <= i <= 65).
Proof.
  intros dk iter table h maxb maxv d ord blob Hi Eh Ht H Ho Hb.
  destruct (C82_hostile table h blob Eh Hb) as [(gid & ops & W & _)|[W|[W|[W _]]]].
  - assert (Dec : {Exists (fun o => Exists (fun i => 1 <= i <= 65) (toggled o)) ops} + {~ Exists (fun o => Exists (fun i => 1 <= i <= 65) (toggled o)) ops}).
    { apply Exists_dec. intros o. apply Exists_dec. intros i. destruct (Z_le_dec 1 i), (Z_le_dec i 65); [left; lia|right; lia|right; lia|right; lia]. }
    destruct Dec as [D|D].
    + right. right. apply Exists_exists in D as (o & D1 & D2). apply Exists_exists in D2 as (i & D2 & D3). exists gid, ops, o, i. rewrite <- toggled_spec. tauto.
    + assert (Hd : forall o i, In o ops -> toggles o i -> ~ 1 <= i <= 65).
      { intros o i H1 H2 H3. apply D. apply Exists_exists. exists o. split; [exact H1|]. apply Exists_exists. exists i. split; [now apply toggled_spec|exact H3]. }
      destruct (C94_names dk iter h maxb maxv d ord blob gid ops Hi H Ho W Hd) as [P Q]. destruct (refers_dec d ops) as [R|R].
      * destruct (P R) as [(d' & out & E)|[E|E]]; [eauto|right; left; exists NameError|right; left; exists StandardError]; (split; [exact E|cbn; tauto]).
      * right. left. exists AttributeError. split; [exact (Q R)|cbn; tauto].
  - right. left. exists StandardError. unfold decompress1. rewrite W. split; [reflexivity|cbn; tauto].
  - right. left. exists KeyError. unfold decompress1. rewrite W. split; [reflexivity|cbn; tauto].
  - lia.
Qed.
Print Assumptions C94_any_octets.

(** A table of three entries: a message by somebody else stores four pairs; others
    toggle an index without an entry, use the number of no name, toggle a range
    that is there with a new pair, and toggle a default entry (outside the model). *)
Definition foreign (h : huffman) (i : instr) : str := match to_wire1 h i 7 with Ok b => b | Err _ => [] end.
Definition outcome {A} (r : res (code1 * A)) : option (list (str * str * Z) * A) + exn :=
  match r with Ok (c, out) => inl (Some (entries1 c, out)) | Err e => inr e end.
Example C94_nontrivial :
  match d1_huffman flat_table with
  | Ok h =>
    let four := mk_instr [] [] [(lit "a", lit "1"); (lit "b", lit "2"); (lit "c", lit "3"); (lit "a", lit "4")] [] in
    match decompress1 (lit "eref") gels h (fun z => z) (code1_new (lit "eref") 4096 3) (foreign h four) with
    | Ok (d, out) =>
        map (fun i => outcome (decompress1 (lit "eref") gels h (fun z => z) d (foreign h i)))
          [mk_instr [300] [] [] []; mk_instr [] [(9, lit "x")] [] []; mk_instr [71; 72] [(3, lit "9")] [] []; mk_instr [5] [] [] []] =
        [inr AttributeError; inr AttributeError;
         inl (Some ([(lit "c", lit "3", 71); (lit "a", lit "4", 72); (lit "b", lit "9", 74)], [(lit "b", lit "2" ++ 0%N :: lit "9")])); inr GenericException]
    | Err _ => False
    end
  | Err _ => False
  end.
Proof. vm_compute. reflexivity. Qed.
