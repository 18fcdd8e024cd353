(** delta2_bohe while nothing is thrown away: the ring is the list of the pairs
    stored, in order. *)
From Coq Require Import String List NArith ZArith Bool Arith Lia Permutation Sorted.
From Verif Require Import PyBase PyStr Lib_Model D1Wire_Model D1Wire_Frame D2Code_Model DB_Model DC_Model.
Import ListNotations.
Open Scope Z_scope.
Open Scope py_scope.

(** ** Sorting *)
Lemma insert_z_sorted x l : StronglySorted Z.le l -> StronglySorted Z.le (insert_z x l).
Proof.
  induction 1 as [|y r S IH F]; cbn [insert_z]; [repeat constructor|]. destruct (Z.leb_spec x y) as [H|H].
  - constructor; [now constructor|]. constructor; [exact H|]. eapply Forall_impl; [|exact F]. intros z; lia.
  - constructor; [exact IH|]. eapply Permutation_Forall; [symmetry; apply insert_z_perm|]. constructor; [lia|exact F].
Qed.
Lemma sort_z_is_sorted l : StronglySorted Z.le (sort_z l).
Proof. induction l as [|x r IH]; [constructor|]. apply insert_z_sorted, IH. Qed.
Lemma sorted_unique : forall a b, StronglySorted Z.le a -> StronglySorted Z.le b -> Permutation a b -> a = b.
Proof.
  induction a as [|x a IH]; intros b Sa Sb P; [apply Permutation_nil in P; now subst|].
  destruct b as [|y b]; [apply Permutation_sym, Permutation_nil in P; discriminate|].
  inversion Sa as [|? ? Sa' Fa]; subst. inversion Sb as [|? ? Sb' Fb]; subst. rewrite Forall_forall in Fa, Fb.
  assert (x = y) as ->.
  { assert (In y (x :: a)) as [->|H1] by (eapply Permutation_in; [symmetry; exact P|now left]); [reflexivity|].
    assert (In x (y :: b)) as [->|H2] by (eapply Permutation_in; [exact P|now left]); [reflexivity|].
    specialize (Fa _ H1). specialize (Fb _ H2). lia. }
  f_equal. apply IH; auto. now apply Permutation_cons_inv in P.
Qed.
Lemma sort_z_eq a b : NoDup a -> NoDup b -> (forall x, In x a <-> In x b) -> sort_z a = sort_z b.
Proof.
  intros Ha Hb H. apply sorted_unique; try apply sort_z_is_sorted. rewrite !sort_z_perm. now apply NoDup_Permutation.
Qed.

(** ** The storage *)
Fixpoint bytes_of (l : list (str * str)) : Z := match l with [] => 0 | (k, v) :: r => slen v + slen k + bytes_of r end.
Lemma bytes_of_app a b : bytes_of (a ++ b) = bytes_of a + bytes_of b.
Proof. induction a as [|[k v] a IH]; cbn [app bytes_of]; lia. Qed.
Lemma bytes_of_perm a b : Permutation a b -> bytes_of a = bytes_of b.
Proof. induction 1; repeat match goal with x : (str * str)%type |- _ => destruct x end; cbn [bytes_of]; lia. Qed.
Lemma slen_pos s : 0 <= slen s.
Proof. unfold slen. lia. Qed.
Lemma bytes_of_pos l : 0 <= bytes_of l.
Proof. induction l as [|[k v] l IH]; cbn [bytes_of]; [lia|]. pose proof (slen_pos k). pose proof (slen_pos v). lia. Qed.

Lemma number_length : forall l n, length (number n l) = length l.
Proof. induction l as [|[k v] l IH]; intros n; cbn [number length]; [reflexivity|]. now rewrite IH. Qed.
Lemma number_app : forall a b n, number n (a ++ b) = number n a ++ number (n + Z.of_nat (length a)) b.
Proof.
  induction a as [|[k v] a IH]; intros b n; cbn [app number length]; [now rewrite Z.add_0_r|]. rewrite IH. do 3 f_equal. lia.
Qed.
Lemma number_nth : forall l n i, nth_error (number n l) i = match nth_error l i with Some (k, v) => Some (mk_kv (n + Z.of_nat i) k v) | None => None end.
Proof.
  induction l as [|[k v] l IH]; intros n [|i]; cbn [number nth_error]; try reflexivity; [now rewrite Z.add_0_r|].
  rewrite IH. destruct (nth_error l i) as [[a b]|]; [|reflexivity]. do 2 f_equal. lia.
Qed.
Lemma offset_is : offset = Z.of_nat (length g_default_kvs).
Proof. unfold offset, static. now rewrite number_length. Qed.
Lemma offset_65 : offset = 65.
Proof. rewrite offset_is. reflexivity. Qed.

(** The pair with a number. *)
Definition pair_at (l : list (str * str)) (i : Z) : option (str * str) :=
  if i <? 0 then None else nth_error (g_default_kvs ++ l) (Z.to_nat i).
Definition live (l : list (str * str)) (i : Z) : Prop := 0 <= i < offset + Z.of_nat (length l).
Definition holds (c : code) (l : list (str * str)) : Prop :=
  k_lru c = mk_lru (number offset l) (bytes_of l) (offset + Z.of_nat (length l)).

Lemma pair_live l i : live l i <-> exists p, pair_at l i = Some p.
Proof.
  unfold live, pair_at. destruct (Z.ltb_spec i 0) as [H|H].
  - split; [lia|intros [p E]; discriminate].
  - split.
    + intros [_ H2]. destruct (nth_error (g_default_kvs ++ l) (Z.to_nat i)) as [p|] eqn:E; [eauto|].
      apply nth_error_None in E. rewrite app_length in E. rewrite offset_is in H2. lia.
    + intros [p E]. apply nth_error_Some_bound in E || (assert (A : nth_error (g_default_kvs ++ l) (Z.to_nat i) <> None) by congruence; apply nth_error_Some in A; rewrite app_length in A; rewrite offset_is; lia).
Qed.
Lemma pair_at_app l m i p : pair_at l i = Some p -> pair_at (l ++ m) i = Some p.
Proof.
  unfold pair_at. destruct (i <? 0); [discriminate|]. intros E. rewrite app_assoc. rewrite nth_error_app1; [exact E|].
  apply nth_error_Some. congruence.
Qed.
Lemma live_app l m i : live l i -> live (l ++ m) i.
Proof. unfold live. rewrite app_length. lia. Qed.
Lemma pair_at_new l p m : pair_at (l ++ p :: m) (offset + Z.of_nat (length l)) = Some p.
Proof.
  unfold pair_at. rewrite offset_is. destruct (Z.ltb_spec (Z.of_nat (length g_default_kvs) + Z.of_nat (length l)) 0); [lia|].
  replace (Z.to_nat _) with (length g_default_kvs + length l)%nat by lia. rewrite app_assoc, nth_error_app2; rewrite app_length; [|lia].
  now rewrite Nat.sub_diag.
Qed.

Lemma lookup_ok c l i k v : holds c l -> pair_at l i = Some (k, v) -> lookup c i = Ok (mk_kv i k v).
Proof.
  unfold holds, pair_at, lookup. intros -> E. destruct (Z.ltb_spec i 0) as [|H0]; [discriminate|].
  destruct (Z.ltb_spec i offset) as [H|H].
  - rewrite nth_error_app1 in E by (rewrite offset_is in H; lia). unfold nth_kv, static. rewrite number_nth, E. do 2 f_equal. lia.
  - rewrite nth_error_app2 in E by (rewrite offset_is in H; lia). cbn [r_ring]. destruct l as [|[k0 v0] l]; [destruct (Z.to_nat i - _)%nat; discriminate|].
    cbn [number q_seq]. destruct (Z.ltb_spec i offset); [lia|]. unfold nth_kv.
    change (mk_kv offset k0 v0 :: number (offset + 1) l) with (number offset ((k0, v0) :: l)). rewrite number_nth.
    replace (Z.to_nat (i - offset)) with (Z.to_nat i - length g_default_kvs)%nat by (rewrite offset_is; rewrite offset_is in H; lia).
    rewrite E. do 2 f_equal. rewrite offset_is. rewrite offset_is in H. lia.
Qed.

Lemma insert_ok c l k v : holds c l -> bytes_of l + (slen v + slen k) <= max_bytes -> Z.of_nat (length l) + 1 <= max_items ->
  exists c', insert_val c k v = Ok (c', offset + Z.of_nat (length l)) /\ holds c' (l ++ [(k, v)]) /\ k_groups c' = k_groups c.
Proof.
  unfold holds, insert_val. intros -> Hb Hi. cbn [r_ring r_bytes r_next].
  assert (A : pop_items (number offset l) (bytes_of l) (k_groups c) = Ok (number offset l, bytes_of l, k_groups c)).
  { destruct (number offset l) eqn:E; cbn [pop_items]; rewrite <- E, number_length; destruct (Z.ltb_spec max_items (Z.of_nat (length l) + 1)); try lia; reflexivity. }
  assert (B : pop_bytes (slen v + slen k) (number offset l) (bytes_of l) (k_groups c) = Ok (number offset l, bytes_of l, k_groups c)).
  { destruct (number offset l) eqn:E; cbn [pop_bytes]; destruct (Z.ltb_spec max_bytes (bytes_of l + (slen v + slen k))); try lia; reflexivity. }
  rewrite A. cbn [bind]. rewrite B. cbn [bind]. unfold store. cbn [r_ring r_bytes r_next]. rewrite number_length.
  destruct (Z.ltb_spec max_bytes (bytes_of l + (slen v + slen k))); [lia|]. destruct (Z.ltb_spec max_items (Z.of_nat (length l) + 1)); [lia|]. cbn [bind].
  eexists. split; [reflexivity|]. cbn [k_lru k_groups]. split; [|reflexivity].
  rewrite number_app, bytes_of_app, app_length. cbn [number bytes_of length].
  assert (offset = 65) by exact offset_65. unfold max_items in *. destruct (Z.ltb_spec max_seq (offset + Z.of_nat (length l) + 1)) as [X|X]; [unfold max_seq in X; lia|].
  f_equal; lia.
Qed.

Lemma find_kv_sound : forall l n k v ki vi, find_kv (number n l) k v = (ki, vi) ->
  (forall i, ki = Some i -> exists j w, nth_error l j = Some (k, w) /\ i = n + Z.of_nat j) /\
  (forall i, vi = Some i -> ki = Some i /\ exists j, nth_error l j = Some (k, v) /\ i = n + Z.of_nat j).
Proof.
  intros l n k v ki vi. unfold find_kv. destruct (find _ _) as [e|] eqn:F.
  - apply find_some in F as [H1 H2]. apply in_rev in H1. assert (H3 : In e (number n l)) by (destruct (number n l); [destruct H1|now right]).
    apply In_nth_error in H3 as [j Hj]. rewrite number_nth in Hj. destruct (nth_error l j) as [[k' v']|] eqn:Ej; [|discriminate].
    assert (e = mk_kv (n + Z.of_nat j) k' v') as -> by congruence. cbn [q_key q_val q_seq] in *.
    destruct (str_eqb_spec k' k) as [->|]; [|discriminate]. destruct (str_eqb_spec v' v) as [->|Hv]; intros E; injection E as <- <-.
    + split; intros i [= <-]; [eauto|]. split; eauto.
    + split; intros i; [intros [= <-]; eauto|discriminate].
  - intros E. injection E as <- <-. split; discriminate.
Qed.

Lemma static_pair l j p : nth_error g_default_kvs j = Some p -> pair_at l (0 + Z.of_nat j) = Some p.
Proof.
  intros E. unfold pair_at. destruct (Z.ltb_spec (0 + Z.of_nat j) 0); [lia|]. replace (Z.to_nat _) with j by lia.
  rewrite nth_error_app1; [exact E|]. apply nth_error_Some. congruence.
Qed.
Lemma dynamic_pair l j p : nth_error l j = Some p -> pair_at l (offset + Z.of_nat j) = Some p.
Proof.
  intros E. unfold pair_at. rewrite offset_is. destruct (Z.ltb_spec (Z.of_nat (length g_default_kvs) + Z.of_nat j) 0); [lia|].
  replace (Z.to_nat _) with (length g_default_kvs + j)%nat by lia. rewrite nth_error_app2 by lia. now replace (_ + j - _)%nat with j by lia.
Qed.

Lemma find_idx_ok c l k v : holds c l ->
  match find_idx c k v with
  | (_, Some n) => pair_at l n = Some (k, v)
  | (Some n, None) => exists w, pair_at l n = Some (k, w)
  | (None, None) => True
  end.
Proof.
  unfold holds, find_idx. intros ->. cbn [r_ring]. destruct (find_kv (number offset l) k v) as [ki vi] eqn:F.
  destruct (find_kv_sound _ _ _ _ _ _ F) as [A B]. destruct (find_kv static k v) as [si ti] eqn:G. destruct (find_kv_sound _ _ _ _ _ _ G) as [A' B']. clear F G.
  assert (T : forall n, ti = Some n -> pair_at l n = Some (k, v)).
  { intros n E. destruct (B' n E) as (_ & j & Ej & ->). now apply static_pair. }
  destruct ki as [ki|].
  - destruct vi as [vi|].
    + destruct (B vi eq_refl) as (_ & j & Ej & ->). now apply dynamic_pair.
    + cbn [snd]. destruct ti as [ti|]; [now apply T|]. destruct (A ki eq_refl) as (j & w & Ej & ->). exists w. now apply dynamic_pair.
  - destruct ti as [ti|]; [destruct si; now apply T|]. destruct si as [si|]; [|exact I]. destruct (A' si eq_refl) as (j & w & Ej & ->). exists w. now apply static_pair.
Qed.

(** ** Groups *)
Lemma gs_get_set gs n g m : gs_get (gs_set gs n g) m = if (m =? n)%N then Some g else gs_get gs m.
Proof.
  induction gs as [|[x y] r IH]; cbn [gs_set gs_get].
  - rewrite (N.eqb_sym n m). destruct (m =? n)%N; reflexivity.
  - destruct (N.eqb_spec x n) as [->|Hx]; cbn [gs_get].
    + rewrite (N.eqb_sym n m). destruct (m =? n)%N; reflexivity.
    + destruct (N.eqb_spec x m) as [->|Hm]; [destruct (N.eqb_spec m n); [contradiction|reflexivity]|exact IH].
Qed.
Lemma gs_get_same gs n g : gs_get (gs_set gs n g) n = Some g.
Proof. rewrite gs_get_set, N.eqb_refl. reflexivity. Qed.
Lemma gs_get_other gs n g m : m <> n -> gs_get (gs_set gs n g) m = gs_get gs m.
Proof. intros H. rewrite gs_get_set. destruct (N.eqb_spec m n); [contradiction|reflexivity]. Qed.

Definition group_of (gs : groups) (n : N) : group := match gs_get gs n with Some g => g | None => mk_group 0 [] end.
Lemma gs_make_ok gs n : exists gs', gs_make gs n = (gs', group_of gs n) /\ gs_get gs' n = Some (group_of gs n) /\ forall m, m <> n -> gs_get gs' m = gs_get gs m.
Proof.
  unfold gs_make, group_of. destruct (gs_get gs n) as [g|] eqn:E; [eauto|].
  eexists. split; [reflexivity|]. split; [apply gs_get_same|]. intros m Hm. now apply gs_get_other.
Qed.

Lemma g_has_spec g i : reflect (In i (g_idxs g)) (g_has g i).
Proof.
  unfold g_has. destruct (existsb (Z.eqb i) (g_idxs g)) eqn:E; constructor.
  - apply existsb_exists in E as (x & Hx & E). apply Z.eqb_eq in E. now subst.
  - intros H. assert (A : existsb (Z.eqb i) (g_idxs g) = true); [|congruence]. apply existsb_exists. exists i. split; [exact H|apply Z.eqb_refl].
Qed.

(** The generation of a number in a group. *)
Definition of_gen (g : group) (i : Z) (n : N) : Prop := In (i, n) (g_store g).
Lemma of_gen_idx g i n : of_gen g i n -> In i (g_idxs g).
Proof. intros H. apply (in_map fst) in H. exact H. Qed.
Lemma idx_of_gen g i : In i (g_idxs g) -> exists n, of_gen g i n.
Proof. intros H. apply in_map_iff in H as ([a n] & <- & H). exists n. exact H. Qed.

Lemma touch_idxs g i : g_idxs (g_touch g i) = if g_has g i then g_idxs g else g_idxs g ++ [i].
Proof.
  unfold g_touch, g_idxs. destruct (g_has g i) eqn:E; cbn [g_store].
  - rewrite map_map. apply map_ext. intros [a n]. cbn [fst]. destruct (Z.eqb_spec a i); cbn [fst]; congruence.
  - rewrite map_app. reflexivity.
Qed.
Lemma touch_gen g i j n : of_gen (g_touch g i) j n <-> (j = i /\ n = g_gen g) \/ (j <> i /\ of_gen g j n).
Proof.
  unfold of_gen, g_touch. destruct (g_has_spec g i) as [H|H]; cbn [g_store].
  - rewrite in_map_iff. split.
    + intros ([a b] & E & Hin). cbn [fst] in E. destruct (Z.eqb_spec a i) as [->|Ha]; injection E as <- <-; auto.
    + intros [[-> ->]|[Hj Hin]].
      * apply in_map_iff in H as ([a b] & <- & Hin). exists (a, b). cbn [fst]. rewrite Z.eqb_refl. auto.
      * exists (j, n). cbn [fst]. destruct (Z.eqb_spec j i); [contradiction|auto].
  - rewrite in_app_iff. cbn [In]. split.
    + intros [Hin|[E|[]]]; [right; split; [|exact Hin]|left; split; congruence]. intros ->. apply H. apply (in_map fst) in Hin. exact Hin.
    + intros [[-> ->]|[_ Hin]]; auto.
Qed.
Lemma toggle_gen g i j n : of_gen (g_toggle g i) j n <->
  (j <> i /\ of_gen g j n) \/ (j = i /\ ~ In i (g_idxs g) /\ n = g_gen g).
Proof.
  unfold of_gen, g_toggle. destruct (g_has_spec g i) as [H|H]; cbn [g_store g_remove].
  - rewrite filter_In. cbn [fst]. split.
    + intros [Hin E]. left. destruct (Z.eqb_spec j i); [discriminate|]. auto.
    + intros [[Hj Hin]|(-> & Hn & _)]; [|contradiction]. split; [exact Hin|]. destruct (Z.eqb_spec j i); [contradiction|reflexivity].
  - rewrite in_app_iff. cbn [In]. split.
    + intros [Hin|[E|[]]]; [left; split; [|exact Hin]|right; split; [congruence|split; [exact H|congruence]]].
      intros ->. apply H. apply (in_map fst) in Hin. exact Hin.
    + intros [[_ Hin]|(-> & _ & ->)]; auto.
Qed.
Lemma touch_gen_same g i : g_gen (g_touch g i) = g_gen g.
Proof. reflexivity. Qed.
Lemma toggle_gen_same g i : g_gen (g_toggle g i) = g_gen g.
Proof. unfold g_toggle. destruct (g_has g i); reflexivity. Qed.

Lemma NoDup_snoc {A} (l : list A) x : NoDup l -> ~ In x l -> NoDup (l ++ [x]).
Proof. intros H1 H2. apply Permutation_NoDup with (x :: l); [apply Permutation_cons_append|]. now constructor. Qed.
Lemma NoDup_map_filter_fst {A B} (f : A * B -> bool) l : NoDup (map fst l) -> NoDup (map fst (filter f l)).
Proof.
  induction l as [|x l IH]; cbn [map filter]; intros H; [constructor|]. inversion H as [|? ? H1 H2]; subst.
  destruct (f x); cbn [map]; [|auto]. constructor; [|auto]. intros Hin. apply H1. apply in_map_iff in Hin as (y & E & Hy). apply filter_In in Hy as [Hy _].
  rewrite <- E. now apply in_map.
Qed.
Lemma touch_nodup g i : NoDup (g_idxs g) -> NoDup (g_idxs (g_touch g i)).
Proof. intros H. rewrite touch_idxs. destruct (g_has_spec g i); [exact H|]. now apply NoDup_snoc. Qed.
Lemma toggle_nodup g i : NoDup (g_idxs g) -> NoDup (g_idxs (g_toggle g i)).
Proof.
  intros H. unfold g_toggle. destruct (g_has_spec g i) as [Hi|Hi].
  - unfold g_idxs, g_remove. cbn [g_store]. now apply NoDup_map_filter_fst.
  - unfold g_idxs. cbn [g_store]. rewrite map_app. now apply NoDup_snoc.
Qed.
Lemma toggle_idx g i j : In j (g_idxs (g_toggle g i)) <-> (j <> i /\ In j (g_idxs g)) \/ (j = i /\ ~ In i (g_idxs g)).
Proof.
  split.
  - intros H. apply idx_of_gen in H as [n H]. apply toggle_gen in H as [[A B]|(A & B & C)]; [left; split; [exact A|eapply of_gen_idx; eauto]|auto].
  - intros [[A B]|[-> B]].
    + apply idx_of_gen in B as [n B]. apply of_gen_idx with n. apply toggle_gen. auto.
    + apply of_gen_idx with (g_gen g). apply toggle_gen. auto.
Qed.
Lemma touch_idx g i j : In j (g_idxs (g_touch g i)) <-> j = i \/ In j (g_idxs g).
Proof. rewrite touch_idxs. destruct (g_has_spec g i) as [H|H]; [|rewrite in_app_iff; cbn [In]]; intuition congruence. Qed.

(** Several toggles, each of its own number. *)
Lemma exec_toggles_ok gid : forall is c g, gs_get (k_groups c) gid = Some g -> NoDup is -> NoDup (g_idxs g) ->
  exists c' g', exec_toggles gid c is = Ok c' /\ k_lru c' = k_lru c /\ gs_get (k_groups c') gid = Some g' /\
    (forall m, m <> gid -> gs_get (k_groups c') m = gs_get (k_groups c) m) /\ g_gen g' = g_gen g /\ NoDup (g_idxs g') /\
    forall j n, of_gen g' j n <-> (~ In j is /\ of_gen g j n) \/ (In j is /\ ~ In j (g_idxs g) /\ n = g_gen g).
Proof.
  induction is as [|i is IH]; intros c g Hg Hn Hd; cbn [exec_toggles].
  - exists c, g. split; [reflexivity|]. split; [reflexivity|]. split; [exact Hg|]. split; [reflexivity|]. split; [reflexivity|]. split; [exact Hd|].
    intros j n. cbn [In]. tauto.
  - inversion Hn as [|? ? Hi Hn']; subst. unfold exec_toggle, gs_at. rewrite Hg. cbn [bind].
    destruct (IH (mk_code (k_lru c) (gs_set (k_groups c) gid (g_toggle g i))) (g_toggle g i)) as (c' & g' & E & L & G & O & N & D & F).
    + cbn [k_groups]. apply gs_get_same.
    + exact Hn'.
    + now apply toggle_nodup.
    + exists c', g'. split; [exact E|]. split; [exact L|]. split; [exact G|]. split.
      { intros m Hm. rewrite (O m Hm). cbn [k_groups]. now apply gs_get_other. }
      split; [rewrite N; apply toggle_gen_same|]. split; [exact D|]. intros j n. rewrite F, toggle_gen, toggle_idx, toggle_gen_same. cbn [In].
      destruct (Z.eq_dec j i) as [->|Hj]; [|assert (i <> j) by congruence]; tauto.
Qed.

(** Several stores. *)
Definition room (l ps : list (str * str)) : Prop :=
  bytes_of l + bytes_of ps <= max_bytes /\ Z.of_nat (length l) + Z.of_nat (length ps) <= max_items.
Lemma room_cons l k v ps : room l ((k, v) :: ps) ->
  bytes_of l + (slen v + slen k) <= max_bytes /\ Z.of_nat (length l) + 1 <= max_items /\ room (l ++ [(k, v)]) ps.
Proof.
  unfold room. rewrite bytes_of_app, app_length. cbn [bytes_of length]. pose proof (bytes_of_pos ps). lia.
Qed.

Lemma exec_stores_ok gid : forall ps c l g, holds c l -> room l ps -> gs_get (k_groups c) gid = Some g -> NoDup (g_idxs g) -> Forall (live l) (g_idxs g) ->
  exists c' g', exec_stores gid c ps = Ok c' /\ holds c' (l ++ ps) /\ gs_get (k_groups c') gid = Some g' /\
    (forall m, m <> gid -> gs_get (k_groups c') m = gs_get (k_groups c) m) /\ g_gen g' = g_gen g /\ NoDup (g_idxs g') /\
    forall j n, of_gen g' j n <-> of_gen g j n \/ (offset + Z.of_nat (length l) <= j < offset + Z.of_nat (length l) + Z.of_nat (length ps) /\ n = g_gen g).
Proof.
  induction ps as [|[k v] ps IH]; intros c l g Hc Hr Hg Hd Hl; cbn [exec_stores].
  - exists c, g. rewrite app_nil_r. split; [reflexivity|]. split; [exact Hc|]. split; [exact Hg|]. split; [reflexivity|]. split; [reflexivity|]. split; [exact Hd|].
    intros j n. cbn [length]. split; [auto|]. intros [H|[H _]]; [exact H|lia].
  - apply room_cons in Hr as (R1 & R2 & R3). destruct (insert_ok c l k v Hc R1 R2) as (c1 & E & H1 & G1). unfold exec_store. rewrite E. cbn [bind].
    destruct (gs_make_ok (k_groups c1) gid) as (gs & Em & Eg & Eo). rewrite Em. assert (X : group_of (k_groups c1) gid = g) by (unfold group_of; rewrite G1, Hg; reflexivity).
    rewrite X in *. cbn [bind]. set (i := offset + Z.of_nat (length l)) in *.
    assert (Hi : ~ In i (g_idxs g)). { rewrite Forall_forall in Hl. intros Hin. specialize (Hl _ Hin). unfold live in Hl. lia. }
    destruct (IH (mk_code (k_lru c1) (gs_set gs gid (g_touch g i))) (l ++ [(k, v)]) (g_touch g i)) as (c' & g' & E' & H' & G' & O' & N' & D' & F').
    + exact H1.
    + exact R3.
    + cbn [k_groups]. apply gs_get_same.
    + now apply touch_nodup.
    + rewrite Forall_forall in *. intros j Hj. apply touch_idx in Hj as [->|Hj]; [|now apply live_app, Hl]. unfold live, i. rewrite app_length, offset_is. cbn [length]. lia.
    + exists c', g'. split; [exact E'|]. split; [rewrite <- app_assoc in H'; exact H'|]. split; [exact G'|]. split.
      { intros m Hm. rewrite (O' m Hm). cbn [k_groups]. rewrite gs_get_other by exact Hm. rewrite (Eo m Hm). now rewrite G1. }
      split; [rewrite N'; reflexivity|]. split; [exact D'|]. intros j n. rewrite F', touch_gen, touch_gen_same, app_length. cbn [length].
      rewrite Nat2Z.inj_add. cbn [Z.of_nat]. unfold i in *.
      assert (Hij : forall m, of_gen g j m -> j <> offset + Z.of_nat (length l)) by (intros m Hm ->; apply Hi; eapply of_gen_idx; eauto).
      split.
      * intros [[[-> ->]|[_ H]]|[H ->]]; [right|left|right]; auto; split; auto; lia.
      * intros [H|[H ->]]; [left; right; split; [eapply Hij; eauto|exact H]|].
        destruct (Z.eq_dec j (offset + Z.of_nat (length l))) as [->|Hn]; [left; left; auto|right; split; [lia|reflexivity]].
Qed.

Definition kv_pair (e : kv) : str * str := (q_key e, q_val e).
Lemma insert_each_ok : forall es c l, holds c l -> room l (map kv_pair es) ->
  exists c', insert_each c es = Ok c' /\ holds c' (l ++ map kv_pair es) /\ k_groups c' = k_groups c.
Proof.
  induction es as [|[s k v] es IH]; intros c l Hc Hr; cbn [insert_each map kv_pair q_key q_val] in *.
  - exists c. rewrite app_nil_r. auto.
  - apply room_cons in Hr as (R1 & R2 & R3). destruct (insert_ok c l k v Hc R1 R2) as (c1 & E & H1 & G1). rewrite E. cbn [bind].
    destruct (IH c1 _ H1 R3) as (c' & E' & H' & G'). exists c'. rewrite <- app_assoc in H'. split; [exact E'|]. split; [exact H'|congruence].
Qed.

Definition at_pairs (l : list (str * str)) (is : list Z) (ps : list (str * str)) : Prop := Forall2 (fun i p => pair_at l i = Some p) is ps.
Lemma lookups_ok c l : holds c l -> forall is ps, at_pairs l is ps -> exists es, lookups c is = Ok es /\ map kv_pair es = ps.
Proof.
  intros H. induction 1 as [|i [k v] is ps E F IH]; cbn [lookups]; [exists []; auto|]. rewrite (lookup_ok _ _ _ _ _ H E). cbn [bind].
  destruct IH as (es & -> & <-). cbn [bind]. exists (mk_kv i k v :: es). auto.
Qed.
Lemma live_pairs l is : Forall (live l) is -> exists ps, at_pairs l is ps.
Proof.
  induction 1 as [|i is H F IH]; [exists []; constructor|]. destruct IH as [ps IH]. apply pair_live in H as [p H]. exists (p :: ps). now constructor.
Qed.
Lemma at_pairs_live l is ps : at_pairs l is ps -> Forall (live l) is.
Proof. induction 1; constructor; auto. apply pair_live. eauto. Qed.
Lemma at_pairs_app l m is ps : at_pairs l is ps -> at_pairs (l ++ m) is ps.
Proof. induction 1; constructor; auto. now apply pair_at_app. Qed.
Lemma at_pairs_in l is ps : at_pairs l is ps -> forall i, In i is -> exists p, In p ps /\ pair_at l i = Some p.
Proof.
  induction 1 as [|a b is ps H F IH]; intros i Hi; [destruct Hi|]. destruct Hi as [->|Hi]; [exists b; cbn [In]; auto|].
  destruct (IH i Hi) as (p & A & B). exists p. cbn [In]. auto.
Qed.
Lemma at_pairs_nodup l is ps : at_pairs l is ps -> NoDup ps -> NoDup is.
Proof.
  induction 1 as [|a b is ps H F IH]; intros N; [constructor|]. inversion N as [|? ? N1 N2]; subst. constructor; [|auto].
  intros Hin. destruct (at_pairs_in _ _ _ F a Hin) as (p & A & B). apply N1. congruence.
Qed.
Lemma at_pairs_perm l is js : Permutation is js -> forall ps, at_pairs l is ps -> exists qs, at_pairs l js qs /\ Permutation ps qs.
Proof.
  induction 1 as [|x a b P IH|x y a|a b c P1 IH1 P2 IH2]; intros ps H.
  - inversion H; subst. exists []. split; constructor.
  - inversion H as [|? p ? ps' H1 H2]; subst. destruct (IH _ H2) as (qs & A & B). exists (p :: qs). split; constructor; auto.
  - inversion H as [|? p ? ps' H1 H2]; subst. inversion H2 as [|? q ? ps'' H3 H4]; subst. exists (q :: p :: ps''). split; [repeat constructor; auto|apply perm_swap].
  - destruct (IH1 _ H) as (qs & A & B). destruct (IH2 _ A) as (rs & C & D). exists rs. split; [exact C|]. now transitivity qs.
Qed.
Lemma at_pairs_range : forall ps l m, at_pairs (l ++ ps ++ m) (map (fun n => offset + Z.of_nat (length l) + Z.of_nat n) (seq 0 (length ps))) ps.
Proof.
  induction ps as [|p ps IH]; intros l m; cbn [length seq map]; [constructor|]. constructor.
  - rewrite Z.add_0_r. apply pair_at_new.
  - specialize (IH (l ++ [p]) m). rewrite <- app_assoc in IH. cbn [app] in IH. rewrite <- seq_shift, map_map.
    erewrite map_ext; [exact IH|]. intros n. cbn beta. rewrite app_length. cbn [length]. lia.
Qed.

(** ** What is found for the pairs of a message *)
Definition cloned (l : list (str * str)) (nv : Z * str) (p : str * str) : Prop := snd nv = snd p /\ exists w, pair_at l (fst nv) = Some (fst p, w).
Lemma translate_ok c l : holds c l -> forall cl ps, Forall2 (cloned l) cl ps -> translate c cl = Ok ps.
Proof.
  intros H. induction 1 as [|[n v] [k v'] cl ps [E [w E']] F IH]; cbn [translate]; [reflexivity|]. cbn [fst snd] in *. subst v'.
  rewrite (lookup_ok _ _ _ _ _ H E'). cbn [bind]. rewrite IH. reflexivity.
Qed.

Lemma has_kv_ok c l k v : holds c l -> forall is, Forall (live l) is ->
  exists r, has_kv c k v is = Ok r /\ match r with Some n => In n is /\ pair_at l n = Some (k, v) | None => forall n, In n is -> pair_at l n <> Some (k, v) end.
Proof.
  intros H. induction 1 as [|i is Hi F IH]; cbn [has_kv]; [exists None; split; [reflexivity|intros n []]|].
  apply pair_live in Hi as [[k' v'] E]. rewrite (lookup_ok _ _ _ _ _ H E). cbn [bind q_key q_val].
  destruct (str_eqb_spec k' k) as [->|Hk]; [destruct (str_eqb_spec v' v) as [->|Hv]|]; cbn [andb].
  - exists (Some i). split; [reflexivity|]. split; [now left|exact E].
  - destruct IH as (r & Er & Hr). exists r. split; [exact Er|]. destruct r; [split; [right; tauto|tauto]|]. intros n [<-|Hn]; [congruence|auto].
  - destruct IH as (r & Er & Hr). exists r. split; [exact Er|]. destruct r; [split; [right; tauto|tauto]|]. intros n [<-|Hn]; [congruence|auto].
Qed.

Definition is_order_z (ord : list Z -> list Z) : Prop := forall l, Permutation (ord l) l.

Record found (l : list (str * str)) (g g' : group) (i : instrs) (done : list (str * str)) : Prop := mk_found {
  f_gen : g_gen g' = g_gen g;
  f_idx : g_idxs g' = g_idxs g;
  f_ps : exists gt pg pt pc, at_pairs l gt pg /\ at_pairs l (n_toggl i) pt /\ Forall2 (cloned l) (n_clone i) pc /\
           Permutation done (pg ++ pt ++ pc ++ n_kvsto i) /\ incl gt (g_idxs g) /\ (forall n, In n (n_toggl i) -> ~ In n (g_idxs g)) /\
           (forall j n, of_gen g' j n <-> (In j gt /\ n = g_gen g) \/ (~ In j gt /\ of_gen g j n)) }.

Lemma at_pairs_snoc l is ps i p : at_pairs l is ps -> pair_at l i = Some p -> at_pairs l (is ++ [i]) (ps ++ [p]).
Proof. intros A B. apply Forall2_app; [exact A|]. repeat constructor. exact B. Qed.

Lemma process_kv_ok ord gid c l g g' i k v done : is_order_z ord -> holds c l -> gs_get (k_groups c) gid = Some g' -> Forall (live l) (g_idxs g) ->
  found l g g' i done ->
  exists c' i' g2, process_kv ord gid c i k v = Ok (c', i') /\ holds c' l /\ gs_get (k_groups c') gid = Some g2 /\
    (forall m, m <> gid -> gs_get (k_groups c') m = gs_get (k_groups c) m) /\ found l g g2 i' (done ++ [(k, v)]).
Proof.
  intros Ho Hc Hg Hl Hf. unfold process_kv, gs_at. rewrite Hg. cbn [bind].
  destruct Hf as [Fg Fi (gt & pg & pt & pc & A1 & A2 & A3 & A4 & A5 & A6 & A7)].
  destruct (has_kv_ok c l k v Hc (ord (g_idxs g'))) as (r & Er & Hr).
  { eapply Permutation_Forall; [symmetry; apply Ho|]. now rewrite Fi. }
  rewrite Er. cbn [bind].
  assert (Touch : forall n, In n (g_idxs g) -> pair_at l n = Some (k, v) -> found l g (g_touch g' n) i (done ++ [(k, v)])).
  { intros n Hn En. constructor; [now rewrite touch_gen_same| |].
    - rewrite touch_idxs. destruct (g_has_spec g' n) as [_|H]; [exact Fi|]. exfalso. apply H. now rewrite Fi.
    - exists (gt ++ [n]), (pg ++ [(k, v)]), pt, pc. split; [now apply at_pairs_snoc|]. split; [exact A2|]. split; [exact A3|]. split.
      { rewrite A4. rewrite <- !app_assoc. apply Permutation_app_head. cbn [app]. symmetry.
        rewrite !app_assoc. apply Permutation_cons_append. }
      split; [intros x Hx; apply in_app_iff in Hx as [Hx|[<-|[]]]; auto|]. split; [exact A6|].
      intros j m. rewrite touch_gen, A7, Fg, in_app_iff. cbn [In].
      destruct (Z.eq_dec j n) as [->|Hj]; [|assert (n <> j) by congruence]; tauto. }
  destruct r as [n|].
  - destruct Hr as [Hn En]. assert (Hn' : In n (g_idxs g)) by (rewrite <- Fi; eapply Permutation_in; [apply Ho|exact Hn]).
    eexists _, _, _. split; [reflexivity|]. split; [exact Hc|]. split; [cbn [k_groups]; apply gs_get_same|]. split; [intros m Hm; cbn [k_groups]; now apply gs_get_other|]. now apply Touch.
  - pose proof (find_idx_ok c l k v Hc) as Hf. destruct (find_idx c k v) as [[ki|] [vi|]].
    + destruct (g_has_spec g' vi) as [Hv|Hv].
      * rewrite Fi in Hv. eexists _, _, _. split; [reflexivity|]. split; [exact Hc|]. split; [cbn [k_groups]; apply gs_get_same|]. split; [intros m Hm; cbn [k_groups]; now apply gs_get_other|]. now apply Touch.
      * exists c. eexists _, _. split; [reflexivity|]. split; [exact Hc|]. split; [exact Hg|]. split; [reflexivity|].
        constructor; [exact Fg|exact Fi|]. exists gt, pg, (pt ++ [(k, v)]), pc. cbn [n_toggl n_clone n_kvsto]. split; [exact A1|]. split; [now apply at_pairs_snoc|]. split; [exact A3|].
        split. { rewrite A4. rewrite <- !app_assoc. do 2 apply Permutation_app_head. cbn [app]. symmetry. rewrite !app_assoc. apply Permutation_cons_append. }
        split; [exact A5|]. split; [|exact A7]. intros x Hx. apply in_app_iff in Hx as [Hx|[<-|[]]]; [auto|]. now rewrite <- Fi.
    + exists c. eexists _, _. split; [reflexivity|]. split; [exact Hc|]. split; [exact Hg|]. split; [reflexivity|].
      constructor; [exact Fg|exact Fi|]. exists gt, pg, pt, (pc ++ [(k, v)]). cbn [n_toggl n_clone n_kvsto]. split; [exact A1|]. split; [exact A2|].
      split. { apply Forall2_app; [exact A3|]. repeat constructor. cbn [fst]. exact Hf. }
      split. { rewrite A4. rewrite <- !app_assoc. do 3 apply Permutation_app_head. cbn [app]. symmetry. apply Permutation_cons_append. }
      split; [exact A5|]. split; [exact A6|exact A7].
    + destruct (g_has_spec g' vi) as [Hv|Hv].
      * rewrite Fi in Hv. eexists _, _, _. split; [reflexivity|]. split; [exact Hc|]. split; [cbn [k_groups]; apply gs_get_same|]. split; [intros m Hm; cbn [k_groups]; now apply gs_get_other|]. now apply Touch.
      * exists c. eexists _, _. split; [reflexivity|]. split; [exact Hc|]. split; [exact Hg|]. split; [reflexivity|].
        constructor; [exact Fg|exact Fi|]. exists gt, pg, (pt ++ [(k, v)]), pc. cbn [n_toggl n_clone n_kvsto]. split; [exact A1|]. split; [now apply at_pairs_snoc|]. split; [exact A3|].
        split. { rewrite A4. rewrite <- !app_assoc. do 2 apply Permutation_app_head. cbn [app]. symmetry. rewrite !app_assoc. apply Permutation_cons_append. }
        split; [exact A5|]. split; [|exact A7]. intros x Hx. apply in_app_iff in Hx as [Hx|[<-|[]]]; [auto|]. now rewrite <- Fi.
    + exists c. eexists _, _. split; [reflexivity|]. split; [exact Hc|]. split; [exact Hg|]. split; [reflexivity|].
      constructor; [exact Fg|exact Fi|]. exists gt, pg, pt, pc. cbn [n_toggl n_clone n_kvsto]. split; [exact A1|]. split; [exact A2|]. split; [exact A3|].
      split. { rewrite A4. rewrite <- !app_assoc. reflexivity. }
      split; [exact A5|]. split; [exact A6|exact A7].
Qed.

Definition encodes (enc : str -> str -> res str) (p q : str * str) : Prop := fst p = fst q /\ enc (fst p) (snd p) = Ok (snd q).
Lemma process_all_ok ord enc gid l g : is_order_z ord -> Forall (live l) (g_idxs g) -> forall ps qs, Forall2 (encodes enc) ps qs ->
  forall c g' i done, holds c l -> gs_get (k_groups c) gid = Some g' -> found l g g' i done ->
  exists c' i' g2, process_all ord enc gid c i ps = Ok (c', i') /\ holds c' l /\ gs_get (k_groups c') gid = Some g2 /\
    (forall m, m <> gid -> gs_get (k_groups c') m = gs_get (k_groups c) m) /\ found l g g2 i' (done ++ qs).
Proof.
  intros Ho Hl. induction 1 as [|[k v] [k' w] ps qs [E1 E2] F IH]; intros c g' i done Hc Hg Hf; cbn [process_all].
  - exists c, i, g'. rewrite app_nil_r. auto 6.
  - cbn [fst snd] in *. subst k'. rewrite E2. cbn [bind].
    destruct (process_kv_ok ord gid c l g g' i k w done Ho Hc Hg Hl Hf) as (c1 & i1 & g1 & -> & H1 & G1 & O1 & F1). cbn [bind].
    destruct (IH c1 g1 i1 _ H1 G1 F1) as (c2 & i2 & g2 & E & H2 & G2 & O2 & F2). exists c2, i2, g2. rewrite <- app_assoc in F2.
    split; [exact E|]. split; [exact H2|]. split; [exact G2|]. split; [|exact F2]. intros m Hm. rewrite (O2 m Hm). auto.
Qed.

(** ** A message *)
Definition same_groups (l : list (str * str)) (g h : group) : Prop :=
  NoDup (g_idxs g) /\ NoDup (g_idxs h) /\ (forall j, In j (g_idxs g) <-> In j (g_idxs h)) /\ Forall (live l) (g_idxs g) /\
  forall j n, of_gen g j n -> (n < g_gen g)%N.
Definition in_step (c d : code) (l : list (str * str)) : Prop :=
  holds c l /\ holds d l /\ forall gid, same_groups l (group_of (k_groups c) gid) (group_of (k_groups d) gid).

Lemma same_groups_app l m g h : same_groups l g h -> same_groups (l ++ m) g h.
Proof.
  intros (A & B & C & D & E). split; [exact A|]. split; [exact B|]. split; [exact C|]. split; [|exact E].
  eapply Forall_impl; [|exact D]. intros i. apply live_app.
Qed.
Lemma group_of_get gs n g : gs_get gs n = Some g -> group_of gs n = g.
Proof. unfold group_of. now intros ->. Qed.
Lemma group_of_eq gs gs' n : gs_get gs n = gs_get gs' n -> group_of gs n = group_of gs' n.
Proof. unfold group_of. now intros ->. Qed.

Lemma adjust_ok gid c l g ps : holds c l -> gs_get (k_groups c) gid = Some g -> at_pairs l (sort_z (g_idxs g)) ps -> room l ps ->
  exists c', adjust gid c = Ok c' /\ holds c' (l ++ ps) /\ k_groups c' = k_groups c.
Proof.
  intros Hc Hg Hp Hr. unfold adjust, gs_at. rewrite Hg. cbn [bind]. destruct (lookups_ok c l Hc _ _ Hp) as (es & -> & E). cbn [bind].
  subst ps. now apply insert_each_ok.
Qed.

Lemma g_old_in g j : NoDup (g_idxs g) -> In j (g_old g) <-> exists n, of_gen g j n /\ n <> g_gen g.
Proof.
  intros Hd. unfold g_old. rewrite in_map_iff. split.
  - intros ([a n] & <- & H). apply filter_In in H as [H1 H2]. cbn [fst snd] in *. exists n. split; [exact H1|]. destruct (N.eqb_spec n (g_gen g)); [discriminate|assumption].
  - intros (n & H1 & H2). exists (j, n). split; [reflexivity|]. apply filter_In. split; [exact H1|]. cbn [snd]. destruct (N.eqb_spec n (g_gen g)); [contradiction|reflexivity].
Qed.
Lemma g_old_nodup g : NoDup (g_idxs g) -> NoDup (g_old g).
Proof. intros H. unfold g_old. now apply NoDup_map_filter_fst. Qed.

(** The numbers of a group after a message. *)
Definition after (gt t : list Z) (a b : Z) (j : Z) : Prop := In j gt \/ In j t \/ a <= j < b.

Lemma NoDup_app_inv {A} (a b : list A) : NoDup (a ++ b) -> NoDup a /\ NoDup b /\ forall x, In x a -> ~ In x b.
Proof.
  induction a as [|y a IH]; cbn [app]; intros H; [split; [constructor|]; split; [exact H|intros x []]|].
  inversion H as [|? ? H1 H2]; subst. destruct (IH H2) as (A1 & A2 & A3). rewrite in_app_iff in H1.
  split; [constructor; tauto|]. split; [exact A2|]. intros x [->|Hx]; [tauto|auto].
Qed.

Lemma NoDup_app_make {A} (a b : list A) : NoDup a -> NoDup b -> (forall x, In x a -> ~ In x b) -> NoDup (a ++ b).
Proof.
  induction a as [|x a IH]; cbn [app]; intros Ha Hb H; [exact Hb|]. inversion Ha; subst. constructor.
  - rewrite in_app_iff. intros [H'|H']; [contradiction|]. apply (H x); [now left|exact H'].
  - apply IH; auto. intros y Hy. apply H. now right.
Qed.

(** The set, listed. *)
Lemma after_pairs l gt pg t pt new m is : at_pairs l gt pg -> at_pairs l t pt -> NoDup (pg ++ pt) -> NoDup is ->
  (forall j, In j is <-> after gt t (offset + Z.of_nat (length l)) (offset + Z.of_nat (length l) + Z.of_nat (length new)) j) ->
  exists ps, at_pairs (l ++ new ++ m) (sort_z is) ps /\ Permutation ps (pg ++ pt ++ new).
Proof.
  intros A1 A2 N1 N2 Hs. set (rng := map (fun n => offset + Z.of_nat (length l) + Z.of_nat n) (seq 0 (length new))).
  assert (Hall : at_pairs (l ++ new ++ m) (gt ++ t ++ rng) (pg ++ pt ++ new)).
  { apply Forall2_app; [now apply at_pairs_app|]. apply Forall2_app; [now apply at_pairs_app|]. apply at_pairs_range. }
  assert (Hn : NoDup (gt ++ t)) by (eapply at_pairs_nodup; [apply Forall2_app; eassumption|exact N1]).
  assert (Hlive : Forall (live l) (gt ++ t)) by (apply Forall_app; split; eapply at_pairs_live; eassumption).
  assert (Hrng : forall j, In j rng <-> offset + Z.of_nat (length l) <= j < offset + Z.of_nat (length l) + Z.of_nat (length new)).
  { intros j. unfold rng. rewrite in_map_iff. split; [intros (n & <- & Hn'); apply in_seq in Hn'; lia|].
    intros Hj. exists (Z.to_nat (j - (offset + Z.of_nat (length l)))). split; [lia|]. apply in_seq. lia. }
  assert (P : Permutation (gt ++ t ++ rng) (sort_z is)).
  { rewrite sort_z_perm. apply NoDup_Permutation; [|exact N2|].
    - rewrite app_assoc. assert (Nr : NoDup rng).
      { unfold rng. apply FinFun.Injective_map_NoDup; [intros a b E; lia|apply seq_NoDup]. }
      clear - Hn Nr Hrng Hlive. induction (gt ++ t) as [|x r IH]; cbn [app]; [exact Nr|]. inversion Hn; subst. inversion Hlive as [|? ? HX HL]; subst. constructor; [|auto].
      rewrite in_app_iff. intros [H|H]; [contradiction|]. apply Hrng in H. unfold live in HX. lia.
    - intros j. rewrite Hs, !in_app_iff, Hrng. unfold after. tauto. }
  destruct (at_pairs_perm _ _ _ P _ Hall) as (qs & B1 & B2). exists qs. split; [exact B1|now symmetry].
Qed.

(** The encoder. *)
Lemma make_operations_ok ord enc gid c l headers qs : is_order_z ord -> holds c l ->
  NoDup (g_idxs (group_of (k_groups c) gid)) -> Forall (live l) (g_idxs (group_of (k_groups c) gid)) ->
  (forall j n, of_gen (group_of (k_groups c) gid) j n -> (n < g_gen (group_of (k_groups c) gid))%N) ->
  Forall2 (encodes enc) (split_headers headers) qs -> NoDup qs -> room l (qs ++ qs) ->
  exists c' i g pc ps, make_operations ord enc gid c headers = Ok (c', i) /\
    let new := pc ++ n_kvsto i in
    holds c' ((l ++ new) ++ ps) /\ gs_get (k_groups c') gid = Some g /\ (forall m, m <> gid -> gs_get (k_groups c') m = gs_get (k_groups c) m) /\
    NoDup (g_idxs g) /\ Forall (live (l ++ new)) (g_idxs g) /\ (forall j n, of_gen g j n -> (n < g_gen g)%N) /\
    at_pairs (l ++ new) (sort_z (g_idxs g)) ps /\ Permutation ps qs /\ room l (new ++ ps) /\ bytes_of new <= bytes_of qs /\ (length new <= length qs)%nat /\
    Forall2 (cloned l) (n_clone i) pc /\ NoDup (n_toggl i) /\
    (forall j, In j (n_toggl i) -> live l j) /\
    (forall j, In j (g_idxs g) <-> (In j (g_idxs (group_of (k_groups c) gid)) /\ ~ In j (n_toggl i)) \/
       (~ In j (g_idxs (group_of (k_groups c) gid)) /\ In j (n_toggl i)) \/
       offset + Z.of_nat (length l) <= j < offset + Z.of_nat (length l) + Z.of_nat (length new)).
Proof.
  intros Ho Hc Hd Hl Hold He Hq Hr. unfold make_operations. destruct (gs_make_ok (k_groups c) gid) as (gs & Em & Eg & Eo). rewrite Em.
  set (g0 := group_of (k_groups c) gid) in *.
  destruct (process_all_ok ord enc gid l g0 Ho Hl _ _ He (mk_code (k_lru c) gs) g0 (mk_instrs [] [] []) []) as (c1 & i & g1 & E1 & H1 & G1 & O1 & F1).
  { exact Hc. } { exact Eg. }
  { constructor; [reflexivity|reflexivity|]. exists [], [], [], []. cbn [n_toggl n_clone n_kvsto app]. repeat (split; [constructor|]). split; [intros x []|]. split; [intros x []|].
    intros j n. cbn [In]. tauto. }
  rewrite E1. cbn [bind app] in *. destruct F1 as [Fg Fi (gt & pg & pt & pc & A1 & A2 & A3 & A4 & A5 & A6 & A7)].
  set (new := pc ++ n_kvsto i). assert (Pq : Permutation qs ((pg ++ pt) ++ new)) by (rewrite A4; unfold new; rewrite <- !app_assoc; reflexivity).
  assert (Nq : NoDup ((pg ++ pt) ++ new)) by (eapply Permutation_NoDup; eassumption).
  apply NoDup_app_inv in Nq as (N1 & N2 & _). destruct (NoDup_app_inv _ _ N1) as (Npg & Npt & _).
  assert (NT : NoDup (n_toggl i)) by (eapply at_pairs_nodup; eassumption).
  assert (LT : forall j, In j (n_toggl i) -> live l j) by (apply Forall_forall; eapply at_pairs_live; exact A2).
  assert (Bq : bytes_of qs = bytes_of pg + bytes_of pt + bytes_of new) by (rewrite (bytes_of_perm _ _ Pq), !bytes_of_app; lia).
  assert (Lq : length qs = (length pg + length pt + length new)%nat) by (rewrite (Permutation_length Pq), !app_length; lia).
  unfold room in Hr. rewrite bytes_of_app, app_length in Hr. pose proof (bytes_of_pos pg) as Bg. pose proof (bytes_of_pos pt) as Bt. pose proof (bytes_of_pos new) as Bn. pose proof (bytes_of_pos qs) as Bqs.
  (* toggles *)
  unfold exec_instrs. assert (D1 : NoDup (g_idxs g1)) by (now rewrite Fi).
  destruct (exec_toggles_ok gid (n_toggl i) c1 g1 G1 NT D1) as (c2 & g2 & E2 & K2 & G2 & O2 & N2' & D2 & F2). rewrite E2. cbn [bind].
  assert (H2 : holds c2 l) by (unfold holds; rewrite K2; exact H1).
  rewrite (translate_ok c2 l H2 _ _ A3). cbn [bind].
  assert (F2' : forall j n, of_gen g2 j n <-> (In j (n_toggl i) /\ n = g_gen g0) \/ (In j gt /\ n = g_gen g0) \/ (~ In j gt /\ ~ In j (n_toggl i) /\ of_gen g0 j n)).
  { intros j n. rewrite F2, A7, Fi, Fg. split.
    - intros [(Ha & [Hb|Hb])|(Ha & Hb & ->)]; [right; left; tauto|right; right; tauto|left; tauto].
    - intros [(Ha & ->)|[(Ha & ->)|(Ha & Hb & Hx)]]; [right; split; [exact Ha|split; [now apply A6|reflexivity]]|left; split; [|tauto]|left; tauto].
      intros Hin. apply (A6 _ Hin). now apply A5. }
  assert (L2 : Forall (live l) (g_idxs g2)).
  { apply Forall_forall. intros j Hj. apply idx_of_gen in Hj as [n Hj]. apply F2' in Hj as [(Ha & _)|[(Ha & _)|(_ & _ & Ha)]]; [auto|rewrite Forall_forall in Hl; auto|].
    rewrite Forall_forall in Hl. apply Hl. eapply of_gen_idx; eauto. }
  (* stores *)
  assert (R1 : room l pc). { unfold room. unfold new in *. rewrite bytes_of_app in *. rewrite app_length in *. pose proof (bytes_of_pos pc). pose proof (bytes_of_pos (n_kvsto i)). lia. }
  destruct (exec_stores_ok gid pc c2 l g2 H2 R1 G2 D2 L2) as (c3 & g3 & E3 & H3 & G3 & O3 & N3 & D3 & F3). rewrite E3. cbn [bind].
  assert (L3 : Forall (live (l ++ pc)) (g_idxs g3)).
  { apply Forall_forall. intros j Hj. apply idx_of_gen in Hj as [n Hj]. apply F3 in Hj as [Hj|[Hj _]].
    - apply live_app. rewrite Forall_forall in L2. apply L2. eapply of_gen_idx; eauto.
    - unfold live. rewrite app_length. pose proof offset_65. lia. }
  assert (R2 : room (l ++ pc) (n_kvsto i)). { unfold room. rewrite bytes_of_app, app_length. unfold new in *. rewrite bytes_of_app in *. rewrite app_length in *. lia. }
  destruct (exec_stores_ok gid (n_kvsto i) c3 (l ++ pc) g3 H3 R2 G3 D3 L3) as (c4 & g4 & E4 & H4 & G4 & O4 & N4 & D4 & F4). rewrite E4. cbn [bind].
  assert (F4' : forall j n, of_gen g4 j n <-> of_gen g2 j n \/ (offset + Z.of_nat (length l) <= j < offset + Z.of_nat (length l) + Z.of_nat (length new) /\ n = g_gen g0)).
  { intros j n. rewrite F4, F3, N3, N2', Fg. unfold new. rewrite !app_length, !Nat2Z.inj_add. split.
    - intros [[H'|[H' ->]]|[H' ->]]; auto; right; split; auto; lia.
    - intros [H'|[H' ->]]; [auto|]. destruct (Z.lt_ge_cases j (offset + Z.of_nat (length l) + Z.of_nat (length pc))); [left; right; split; auto; lia|right; split; auto; lia]. }
  assert (Gen4 : g_gen g4 = g_gen g0) by congruence.
  (* turning off *)
  unfold gs_make. rewrite G4. cbn [bind].
  assert (No : NoDup (ord (g_old g4))) by (eapply Permutation_NoDup; [symmetry; apply Ho|now apply g_old_nodup]).
  destruct (exec_toggles_ok gid (ord (g_old g4)) (mk_code (k_lru c4) (k_groups c4)) g4 G4 No D4) as (c5 & g5 & E5 & K5 & G5 & O5 & N5 & D5 & F5). rewrite E5. cbn [bind].
  assert (Old : forall j, In j (ord (g_old g4)) <-> ~ In j gt /\ In j (g_idxs g0)).
  { intros j. transitivity (In j (g_old g4)). { split; apply Permutation_in; [apply Ho|symmetry; apply Ho]. }
    rewrite (g_old_in g4 j D4), Gen4. split.
    - intros (n & Hn & Hne). apply F4' in Hn as [Hn|[_ ->]]; [|contradiction]. apply F2' in Hn as [[_ ->]|[[_ ->]|(Ha & _ & Hb)]]; try contradiction. split; [exact Ha|]. eapply of_gen_idx; eauto.
    - intros [Ha Hb]. apply idx_of_gen in Hb as [n Hb]. exists n. split; [|specialize (Hold _ _ Hb); lia]. apply F4'. left. apply F2'. right. right. split; [exact Ha|]. split; [|exact Hb].
      intros Hin. apply (A6 _ Hin). eapply of_gen_idx; eauto. }
  assert (F5' : forall j n, of_gen g5 j n <-> after gt (n_toggl i) (offset + Z.of_nat (length l)) (offset + Z.of_nat (length l) + Z.of_nat (length new)) j /\ n = g_gen g0).
  { intros j n. rewrite F5, Old, F4', F2', Gen4. unfold after. split.
    - intros [(Ha & [[(Hb & ->)|[(Hb & ->)|(Hb & Hb' & Hx)]]|(Hb & ->)])|((Ha & Hb) & Hx & _)]; try tauto.
      + exfalso. apply Ha. split; [exact Hb|]. eapply of_gen_idx; eauto.
      + exfalso. apply Hx. apply idx_of_gen in Hb as [n' Hb]. apply of_gen_idx with n'. apply F4'. left. apply F2'. right. right. split; [exact Ha|]. split; [|exact Hb].
        intros Hin. apply (A6 _ Hin). eapply of_gen_idx; eauto.
    - intros [[Ha|[Ha|Ha]] ->]; left; (split; [|tauto]).
      + intros [Hx _]. contradiction.
      + intros [_ Hx]. exact (A6 _ Ha Hx).
      + intros [_ Hx]. rewrite Forall_forall in Hl. specialize (Hl _ Hx). unfold live in Hl. lia. }
  assert (I5 : forall j, In j (g_idxs g5) <-> after gt (n_toggl i) (offset + Z.of_nat (length l)) (offset + Z.of_nat (length l) + Z.of_nat (length new)) j).
  { intros j. split; [intros Hj; apply idx_of_gen in Hj as [n Hj]; apply F5' in Hj; tauto|]. intros Hj. apply of_gen_idx with (g_gen g0). apply F5'. auto. }
  unfold gs_at. rewrite G5. cbn [bind].
  (* the copies *)
  destruct (after_pairs l gt pg (n_toggl i) pt new [] (g_idxs g5) A1 A2 N1 D5 I5) as (ps & P1 & P2). rewrite app_nil_r in P1.
  assert (P3 : Permutation ps qs) by (rewrite P2, Pq, <- app_assoc; reflexivity).
  assert (R3 : room (l ++ new) ps).
  { unfold room. rewrite bytes_of_app, app_length, (bytes_of_perm _ _ P3), (Permutation_length P3). lia. }
  destruct (adjust_ok gid (mk_code (k_lru c5) (gs_set (k_groups c5) gid (g_next g5))) (l ++ new) (g_next g5) ps) as (c6 & E6 & H6 & G6).
  { unfold holds. cbn [k_lru]. rewrite K5. cbn [k_lru]. unfold new. rewrite app_assoc. exact H4. }
  { cbn [k_groups]. apply gs_get_same. } { exact P1. } { exact R3. }
  rewrite E6. cbn [bind]. exists c6. eexists. exists (g_next g5), pc, ps. split; [reflexivity|]. cbn [n_toggl n_clone n_kvsto]. fold new.
  split; [exact H6|]. split; [rewrite G6; cbn [k_groups]; apply gs_get_same|]. split.
  { intros m Hm. rewrite G6. cbn [k_groups]. rewrite gs_get_other by exact Hm. rewrite (O5 m Hm). cbn [k_groups]. rewrite (O4 m Hm), (O3 m Hm), (O2 m Hm), (O1 m Hm). cbn [k_groups]. now apply Eo. }
  split; [exact D5|]. split. { eapply Permutation_Forall; [apply sort_z_perm|]. eapply at_pairs_live. exact P1. }
  split. { intros j n Hn. cbn [g_gen g_next]. assert (n = g_gen g5) as -> by (rewrite N5, Gen4; apply (F5' j n); exact Hn). lia. }
  split; [exact P1|]. split; [exact P3|]. split. { unfold room. rewrite bytes_of_app, app_length, (bytes_of_perm _ _ P3), (Permutation_length P3). lia. }
  split; [lia|]. split; [lia|]. split; [exact A3|]. split. { apply NoDup_app_make; [exact NT|exact No|]. intros x Hx Hy. apply (A6 _ Hx). apply Old in Hy. tauto. }
  split.
  { intros j Hj. apply in_app_iff in Hj as [Hj|Hj]; [auto|]. apply Old in Hj as [_ Hj]. rewrite Forall_forall in Hl. auto. }
  intros j. change (g_idxs (g_next g5)) with (g_idxs g5). rewrite I5, in_app_iff, Old. unfold after.
  specialize (A5 j). specialize (A6 j). destruct (in_dec Z.eq_dec j gt); destruct (in_dec Z.eq_dec j (n_toggl i)); destruct (in_dec Z.eq_dec j (g_idxs g0)); tauto.
Qed.

(** The decoder. *)
Lemma exec_ops_app gid a : forall b c, exec_ops gid c (a ++ b) = bind (exec_ops gid c a) (fun c => exec_ops gid c b).
Proof. induction a as [|o a IH]; intros b c; cbn [app exec_ops]; [reflexivity|]. destruct (exec_op gid c o); cbn [bind]; [apply IH|reflexivity]. Qed.
Lemma exec_toggles_app gid a : forall b c, exec_toggles gid c (a ++ b) = bind (exec_toggles gid c a) (fun c => exec_toggles gid c b).
Proof. induction a as [|o a IH]; intros b c; cbn [app exec_toggles]; [reflexivity|]. destruct (exec_toggle gid c o); cbn [bind]; [apply IH|reflexivity]. Qed.
Lemma exec_ops_toggles gid : forall l c, exec_ops gid c (map OToggl l) = exec_toggles gid c l.
Proof. induction l as [|i l IH]; intros c; cbn [map exec_ops exec_toggles exec_op]; [reflexivity|]. destruct (exec_toggle gid c i); cbn [bind]; [apply IH|reflexivity]. Qed.
Lemma exec_ops_ranges gid : forall l c, Forall (fun r => (fst r < snd r)%Z) l ->
  exec_ops gid c (map (fun '(s, e) => OTrang s e) l) = exec_toggles gid c (flat_map range_idx l).
Proof.
  induction l as [|[s e] l IH]; intros c H; cbn [map exec_ops flat_map]; [reflexivity|]. inversion H as [|? ? H1 H2]; subst. rewrite exec_toggles_app. cbn [exec_op].
  unfold range_idx at 1. cbn [fst snd] in *. replace (e + 1 - s) with (e - s + 1) by lia.
  destruct (exec_toggles gid c _); cbn [bind]; [now apply IH|reflexivity].
Qed.
Lemma exec_ops_clones gid : forall l c, exec_ops gid c (map (fun '(n, v) => OClone n v) l) = Ok c.
Proof. induction l as [|[n v] l IH]; intros c; cbn [map exec_ops exec_op bind]; auto. Qed.
Lemma exec_ops_stores gid : forall l c, exec_ops gid c (map (fun '(k, v) => OKvsto k v) l) = exec_stores gid c l.
Proof. induction l as [|[k v] l IH]; intros c; cbn [map exec_ops exec_stores exec_op]; [reflexivity|]. destruct (exec_store gid c k v); cbn [bind]; [apply IH|reflexivity]. Qed.
Lemma clones_of_sent i : clones_of (sent i) = n_clone i.
Proof.
  unfold sent, clones_of. destruct (toggle_ranges (n_toggl i)) as [ot otr]. rewrite !flat_map_app.
  assert (A : forall l, flat_map (fun o => match o with OClone n v => [(n, v)] | _ => [] end) (map OToggl l) = []) by (induction l; auto).
  assert (B : forall l, flat_map (fun o => match o with OClone n v => [(n, v)] | _ => [] end) (map (fun '(s, e) => OTrang s e) l) = []) by (induction l as [|[? ?] ? ?]; auto).
  assert (C : forall l, flat_map (fun o => match o with OClone n v => [(n, v)] | _ => [] end) (map (fun '(n, v) => OClone n v) l) = l) by (induction l as [|[? ?] ? IH]; cbn [map flat_map app]; [auto|now rewrite IH]).
  assert (D : forall l, flat_map (fun o => match o with OClone n v => [(n, v)] | _ => [] end) (map (fun '(k, v) => OKvsto k v) l) = []) by (induction l as [|[? ?] ? ?]; auto).
  rewrite A, B, C, D. now rewrite app_nil_r.
Qed.

Lemma execute_ok gid d l i pc : holds d l -> NoDup (g_idxs (group_of (k_groups d) gid)) -> Forall (live l) (g_idxs (group_of (k_groups d) gid)) ->
  let new := pc ++ n_kvsto i in
  Forall2 (cloned l) (n_clone i) pc -> NoDup (n_toggl i) -> (forall j, In j (n_toggl i) -> live l j) -> room l new ->
  exists d' h, execute gid d (sent i) = Ok d' /\ holds d' (l ++ new) /\ gs_get (k_groups d') gid = Some h /\
    (forall m, m <> gid -> gs_get (k_groups d') m = gs_get (k_groups d) m) /\ NoDup (g_idxs h) /\
    (forall j, In j (g_idxs h) <-> (In j (g_idxs (group_of (k_groups d) gid)) /\ ~ In j (n_toggl i)) \/
       (~ In j (g_idxs (group_of (k_groups d) gid)) /\ In j (n_toggl i)) \/
       offset + Z.of_nat (length l) <= j < offset + Z.of_nat (length l) + Z.of_nat (length new)).
Proof.
  intros Hd Nd Ld new Hcl NT LT Hr. unfold execute. destruct (gs_make_ok (k_groups d) gid) as (gs & Em & Eg & Eo). rewrite Em. cbn [bind].
  set (g0 := group_of (k_groups d) gid) in *. rewrite clones_of_sent.
  assert (Hd0 : holds (mk_code (k_lru d) gs) l) by exact Hd. rewrite (translate_ok _ _ Hd0 _ _ Hcl). cbn [bind].
  assert (R1 : room l pc /\ room (l ++ pc) (n_kvsto i)).
  { unfold room in *. unfold new in Hr. rewrite bytes_of_app, app_length in Hr. pose proof (bytes_of_pos pc). pose proof (bytes_of_pos (n_kvsto i)). rewrite bytes_of_app, app_length. lia. }
  destruct R1 as [R1 R2].
  destruct (exec_stores_ok gid pc _ l g0 Hd0 R1 Eg Nd Ld) as (c1 & g1 & E1 & H1 & G1 & O1 & N1 & D1 & F1). rewrite E1. cbn [bind].
  unfold sent. destruct (toggle_ranges (n_toggl i)) as [ot otr] eqn:Et. destruct (toggle_ranges_ok _ _ _ Et) as [Pt Ft].
  assert (Na : NoDup (all_idx ot otr)) by (eapply Permutation_NoDup; [symmetry; exact Pt|exact NT]).
  assert (Ia : forall j, In j (all_idx ot otr) <-> In j (n_toggl i)) by (intros j; split; apply Permutation_in; [exact Pt|symmetry; exact Pt]).
  destruct (exec_toggles_ok gid (all_idx ot otr) c1 g1 G1 Na D1) as (c2 & g2 & E2 & K2 & G2 & O2 & N2 & D2 & F2).
  rewrite app_assoc, exec_ops_app, exec_ops_app, exec_ops_toggles.
  assert (E2' : bind (exec_toggles gid c1 ot) (fun c => exec_ops gid c (map (fun '(s, e) => OTrang s e) otr)) = Ok c2).
  { rewrite <- E2. unfold all_idx. rewrite exec_toggles_app. destruct (exec_toggles gid c1 ot); cbn [bind]; [now apply exec_ops_ranges|reflexivity]. }
  rewrite E2'. cbn [bind]. rewrite exec_ops_app, exec_ops_clones. cbn [bind]. rewrite exec_ops_stores.
  assert (H2 : holds c2 (l ++ pc)) by (unfold holds; rewrite K2; exact H1).
  assert (I2 : forall j, In j (g_idxs g2) <-> (In j (g_idxs g0) /\ ~ In j (n_toggl i)) \/ (~ In j (g_idxs g0) /\ In j (n_toggl i)) \/
       offset + Z.of_nat (length l) <= j < offset + Z.of_nat (length l) + Z.of_nat (length pc)).
  { intros j. assert (I1 : In j (g_idxs g1) <-> In j (g_idxs g0) \/ offset + Z.of_nat (length l) <= j < offset + Z.of_nat (length l) + Z.of_nat (length pc)).
    { split.
      - intros Hj. apply idx_of_gen in Hj as [n Hj]. apply F1 in Hj as [Hj|[Hj _]]; [left; eapply of_gen_idx; eauto|auto].
      - intros [Hj|Hj]; [apply idx_of_gen in Hj as [n Hj]; apply of_gen_idx with n; apply F1; auto|apply of_gen_idx with (g_gen g0); apply F1; auto]. }
    assert (I1' : In j (n_toggl i) -> ~ (offset + Z.of_nat (length l) <= j < offset + Z.of_nat (length l) + Z.of_nat (length pc))).
    { intros Hj. specialize (LT _ Hj). unfold live in LT. lia. }
    transitivity ((In j (g_idxs g1) /\ ~ In j (n_toggl i)) \/ (~ In j (g_idxs g1) /\ In j (n_toggl i))).
    - split.
      + intros Hj. apply idx_of_gen in Hj as [n Hj]. apply F2 in Hj as [[Ha Hb]|(Ha & Hb & _)]; rewrite Ia in Ha; [left; split; [eapply of_gen_idx; eauto|exact Ha]|auto].
      + intros [[Ha Hb]|[Ha Hb]]; rewrite <- Ia in Hb.
        * apply idx_of_gen in Ha as [n Ha]. apply of_gen_idx with n. apply F2. auto.
        * apply of_gen_idx with (g_gen g1). apply F2. auto.
    - rewrite I1. destruct (in_dec Z.eq_dec j (n_toggl i)) as [x|x]; [specialize (I1' x)|]; tauto. }
  assert (L2 : Forall (live (l ++ pc)) (g_idxs g2)).
  { apply Forall_forall. intros j Hj. apply I2 in Hj as [[Hj _]|[[_ Hj]|Hj]]; [apply live_app; rewrite Forall_forall in Ld; auto|apply live_app; auto|].
    unfold live. rewrite app_length. pose proof offset_65. lia. }
  destruct (exec_stores_ok gid (n_kvsto i) c2 (l ++ pc) g2 H2 R2 G2 D2 L2) as (c3 & g3 & E3 & H3 & G3 & O3 & N3 & D3 & F3).
  exists c3, g3. split; [exact E3|]. split; [unfold new; rewrite app_assoc; exact H3|]. split; [exact G3|]. split.
  { intros m Hm. rewrite (O3 m Hm), (O2 m Hm), (O1 m Hm). cbn [k_groups]. auto. }
  split; [exact D3|]. intros j. unfold new. rewrite app_length, Nat2Z.inj_add.
  transitivity (In j (g_idxs g2) \/ offset + Z.of_nat (length (l ++ pc)) <= j < offset + Z.of_nat (length (l ++ pc)) + Z.of_nat (length (n_kvsto i))).
  { split.
    - intros Hj. apply idx_of_gen in Hj as [n Hj]. apply F3 in Hj as [Hj|[Hj _]]; [left; eapply of_gen_idx; eauto|auto].
    - intros [Hj|Hj]; [apply idx_of_gen in Hj as [n Hj]; apply of_gen_idx with n; apply F3; auto|apply of_gen_idx with (g_gen g2); apply F3; auto]. }
  rewrite I2, app_length, Nat2Z.inj_add. split.
  - intros [[H|[H|H]]|H]; auto; right; right; lia.
  - intros [H|[H|H]]; auto. destruct (Z.lt_ge_cases j (offset + Z.of_nat (length l) + Z.of_nat (length pc))); [left; right; right; lia|right; lia].
Qed.

Lemma generate_ok gid d l h ps : holds d l -> gs_get (k_groups d) gid = Some h -> at_pairs l (sort_z (g_idxs h)) ps -> room l ps ->
  exists d' es, generate gid d = Ok (d', cookie_nul (fold_left add_header es [])) /\ map kv_pair es = ps /\ holds d' (l ++ ps) /\ k_groups d' = k_groups d.
Proof.
  intros Hd Hg Hp Hr. unfold generate, gs_at. rewrite Hg. cbn [bind]. destruct (lookups_ok d l Hd _ _ Hp) as (es & -> & E). cbn [bind].
  destruct (adjust_ok gid d l h ps Hd Hg Hp Hr) as (d' & -> & H' & G'). cbn [bind]. exists d', es. auto.
Qed.

(** One message. *)
Lemma message_ok ord enc gid c d l headers qs : is_order_z ord -> in_step c d l -> Forall2 (encodes enc) (split_headers headers) qs -> NoDup qs -> room l (qs ++ qs) ->
  exists c' i d1 d' es new ps, make_operations ord enc gid c headers = Ok (c', i) /\ execute gid d (sent i) = Ok d1 /\
    generate gid d1 = Ok (d', cookie_nul (fold_left add_header es [])) /\ Permutation (map kv_pair es) qs /\
    in_step c' d' (l ++ new ++ ps) /\ bytes_of (new ++ ps) <= bytes_of (qs ++ qs) /\ (length (new ++ ps) <= length (qs ++ qs))%nat.
Proof.
  intros Ho (Hc & Hd & Hg) He Hq Hr. pose proof (Hg gid) as Hgid. destruct Hgid as (S1 & S2 & S3 & S4 & S5).
  set (g0 := group_of (k_groups c) gid) in *. set (h0 := group_of (k_groups d) gid) in *.
  destruct (make_operations_ok ord enc gid c l headers qs Ho Hc S1 S4 S5 He Hq Hr) as (c' & i & g & pc & ps & E1 & X). fold g0 in X. cbn zeta in X. set (new := pc ++ n_kvsto i) in X.
  destruct X as (H1 & G1 & O1 & D1 & L1 & Gn1 & P1 & P2 & R1 & B1 & B2 & Cl & NT & LT & I1).
  assert (L0 : Forall (live l) (g_idxs h0)). { apply Forall_forall. intros j Hj. apply S3 in Hj. rewrite Forall_forall in S4. auto. }
  assert (Rn : room l new). { unfold room in *. rewrite bytes_of_app, app_length in R1. pose proof (bytes_of_pos ps). lia. }
  destruct (execute_ok gid d l i pc Hd S2 L0 Cl NT LT Rn) as (d1 & h & E2 & H2 & G2 & O2 & D2 & I2). fold h0 new in H2, I2.
  assert (Same : forall j, In j (g_idxs g) <-> In j (g_idxs h)). { intros j. rewrite I1, I2, S3. reflexivity. }
  assert (Es : sort_z (g_idxs g) = sort_z (g_idxs h)) by (now apply sort_z_eq).
  assert (Rp : room (l ++ new) ps). { unfold room in *. rewrite bytes_of_app, app_length in R1. rewrite bytes_of_app, app_length. lia. }
  rewrite Es in P1. destruct (generate_ok gid d1 (l ++ new) h ps H2 G2 P1 Rp) as (d' & es & E3 & Ees & H3 & G3).
  exists c', i, d1, d', es, new, ps. split; [exact E1|]. split; [exact E2|]. split; [exact E3|]. split; [rewrite Ees; exact P2|]. split.
  - rewrite app_assoc. split; [exact H1|]. split; [exact H3|]. intros m. destruct (N.eq_dec m gid) as [->|Hm].
    + rewrite (group_of_get _ _ _ G1). rewrite G3, (group_of_get _ _ _ G2). split; [exact D1|]. split; [exact D2|]. split; [exact Same|]. split; [|exact Gn1].
      eapply Forall_impl; [|exact L1]. intros j. apply live_app.
    + rewrite (group_of_eq _ _ _ (O1 m Hm)), G3, (group_of_eq _ _ _ (O2 m Hm)). rewrite <- app_assoc. now apply same_groups_app.
  - rewrite !bytes_of_app, !app_length, (bytes_of_perm _ _ P2), (Permutation_length P2). lia.
Qed.
