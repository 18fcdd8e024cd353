(** * What storing preserves: sequence numbers, limits, groups, reference counts. *)
From Coq Require Import String List NArith ZArith Bool Arith Lia Permutation Sorted.
From Verif Require Import PyBase PyStr HD_Sim D2Store_Model D2Store_Proofs Prop_D2Store D2Wire_Model D2Code_Model D2Code_Sets.
Import ListNotations.
Open Scope Z_scope.
Open Scope py_scope.

(** ** The static table *)

Definition static_ok (l : lru) : Prop :=
  l_offset l = 0 /\ ring_len l = 65 /\ forall i x, nth_error (l_ring l) i = Some x -> snd x = Z.of_nat i.

Lemma static_lookup l q : static_ok l -> 0 <= q < 65 -> exists e, lookup l q = Ok (e, q) /\ In (e, q) (l_ring l).
Proof.
  intros (H1 & H2 & H3) Hq. unfold ring_len in H2.
  destruct (nth_error (l_ring l) (Z.to_nat q)) as [[e q']|] eqn:E; [|apply nth_error_None in E; lia].
  pose proof (H3 _ _ E) as Eq. cbn [snd] in Eq. assert (Q : q' = q) by lia. clear Eq. subst q'. exists e. split; [|eapply nth_error_In; eauto].
  unfold lookup, idx_from_left. destruct (l_ring l) as [|[e0 q0] r] eqn:Er; [cbn in H2; lia|]. rewrite dq_get_head. cbn [bind].
  pose proof (H3 0%nat (e0, q0) eq_refl) as E0. cbn [snd] in E0. change (Z.of_nat 0) with 0 in E0. subst q0. rewrite H1.
  destruct (Z.ltb_spec q 0); [lia|]. cbn [bind]. rewrite Z.sub_0_r. apply dq_get_nth in E. rewrite Z2Nat.id in E by lia. rewrite E. cbn [bind snd].
  now rewrite Z.eqb_refl.
Qed.

(** ** Configurations *)

Record cfg_ok (c : cfg) : Prop := {
  co_index : 65 < c_max_index c <= 65535;
  co_entries : c_max_entries c <= c_max_index c - 65;
  co_width : match c_width c with Int8 => c_max_index c <= 255 | _ => True end }.

Lemma config_ok o : cfg_ok (config o).
Proof.
  destruct o as [mb [me|] [] [] ha im rc oe fe]; split; cbn; try exact I; lia.
Qed.

(** ** Storage *)

Record sinv (c : cfg) (s : storage) : Prop := {
  si_static : static_ok (s_static s);
  si_lru : linv 65 (c_max_index c) (s_lru s);
  si_items : l_items (s_lru s) = Some (c_max_entries c);
  si_maxb : l_maxb (s_lru s) = Some (c_max_byte_size c);
  si_len : ring_len (s_lru s) <= Z.max 0 (c_max_entries c) }.

Definition live := is_hg.

Lemma sinv_heap c s h : sinv c s -> sinv c (mk_storage h (s_static s) (s_lru s)).
Proof. intros []; split; assumption. Qed.

Lemma lookup_live c s q : cfg_ok c -> sinv c s -> live s q -> exists e, lookup_idx s q = Ok (e, q) /\ (In (e, q) (l_ring (s_static s)) \/ In (e, q) (l_ring (s_lru s))).
Proof.
  intros Hc [S1 S2 _ _ _] Hq. destruct S1 as (SA & SB & SC). unfold lookup_idx. rewrite SB. destruct Hq as [Hq|Hq].
  - rewrite SB in Hq. destruct (Z.ltb_spec q 65); [|lia]. destruct (static_lookup (s_static s) q) as (e & E & Hin); [repeat split; assumption|lia|]. eauto.
  - apply in_map_iff in Hq as ([e q'] & E & Hin). cbn in E. subst q'. pose proof Hin as Hin'. apply In_nth_error in Hin as (i & Hi).
    assert (HO : 0 <= 65 < c_max_index c) by (destruct Hc; lia).
    pose proof (linv_range _ _ HO _ _ _ S2 Hi) as Hr. cbn [snd] in Hr. destruct (Z.ltb_spec q 65); [lia|].
    exists e. split; [exact (linv_lookup _ _ HO _ _ _ S2 Hi)|auto].
Qed.

(** Inserting: the oldest entries go, the new one is appended if there is room. *)
Lemma insert_spec c s e : cfg_ok c -> sinv c s -> exists s' n p kept, insert_val s e = Ok (s', n, p) /\ sinv c s' /\ s_static s' = s_static s /\
  l_ring (s_lru s) = p ++ kept /\ l_ring (s_lru s') = kept ++ match n with Some q => [(e, q)] | None => [] end.
Proof.
  intros Hc [S1 S2 S3 S4 S5]. assert (HO : 0 <= 65 < c_max_index c) by (destruct Hc; lia).
  destruct (insert_val_ok s e) as (h' & l' & n & p & E & Hn). destruct n as [q|].
  - destruct Hn as (l1 & Er & Es & -> & Hr). pose proof (reserve_suffix _ _ _ _ _ _ _ _ Er) as (_ & Ei & Eb & _).
    pose proof (reserve_linv _ _ HO _ _ _ _ _ _ _ _ Er S2) as L1. pose proof (reserve_popped _ _ _ _ _ _ _ _ Er) as (Ep & Eok).
    destruct (Eok eq_refl) as [A _]. destruct (A _ S3) as [A1 A2].
    exists (mk_storage h' (s_static s) l'), (Some (l_seq l1)), p, (l_ring l1). split; [exact E|]. split; [|cbn; auto].
    pose proof (store_ring _ _ _ _ Es) as (_ & Ei' & Eb' & _). split; cbn; auto; try congruence.
    + eapply store_linv; eauto. destruct Hc. lia.
    + unfold ring_len in *. rewrite Hr, app_length. cbn [length]. lia.
  - destruct Hn as (ok & Er & ->). pose proof (reserve_suffix _ _ _ _ _ _ _ _ Er) as (_ & Ei & Eb & _).
    pose proof (reserve_linv _ _ HO _ _ _ _ _ _ _ _ Er S2) as L1. pose proof (reserve_popped _ _ _ _ _ _ _ _ Er) as (Ep & _).
    exists (mk_storage h' (s_static s) l'), None, p, (l_ring l'). split; [exact E|]. split; [|cbn; rewrite app_nil_r; auto].
    split; cbn; auto; try congruence. unfold ring_len in *. rewrite Ep, app_length in S5. lia.
Qed.

(** ** Header groups refer to live entries *)

Definition gall (P : Z -> Prop) (g : groups) : Prop := Forall (fun p => zsorted (snd p) /\ Forall P (snd p)) g.

Lemma gall_impl (P Q : Z -> Prop) g : (forall x, P x -> Q x) -> gall P g -> gall Q g.
Proof. intros H. unfold gall. apply Forall_impl. intros p [A B]. split; [exact A|]. eapply Forall_impl; eauto. Qed.
Lemma gall_find P g id : gall P g -> gall P (find_or_make g id).
Proof.
  unfold gall. rewrite !Forall_forall. intros H p Hp. apply find_or_make_In in Hp as [->|Hp]; [|now apply H]. split; constructor.
Qed.
Lemma gall_gset (P : Z -> Prop) g id s : zsorted s -> Forall P s -> gall P g -> gall P (gset g id s).
Proof. unfold gall. rewrite !Forall_forall. intros H1 H2 H p Hp. apply gset_In in Hp as [->|Hp]; [cbn; rewrite Forall_forall; auto|now apply H]. Qed.
Lemma gall_get P g id s : gall P g -> gget g id = Some s -> zsorted s /\ Forall P s.
Proof. unfold gall. rewrite Forall_forall. intros H E. apply gget_In in E. exact (H _ E). Qed.

Lemma gall_remove (P : Z -> Prop) g e : gall P g -> gall (fun x => P x /\ x <> snd e) (remove_from_groups g e).
Proof.
  unfold gall, remove_from_groups. rewrite !Forall_forall. intros H p Hp. apply filter_In in Hp as [Hp _]. apply in_map_iff in Hp as (p' & <- & Hp).
  destruct (H p' Hp) as [A B]. cbn [snd]. split; [now apply zremove_sorted|]. rewrite Forall_forall in B |- *. intros x Hx. apply zremove_In in Hx as [Hx1 Hx2]. auto.
Qed.

Definition yinv (P : Z -> Prop) (y : ystate) : Prop :=
  gall P (y_groups y) /\ forall o, y_orphan y = Some o -> zsorted o.

Lemma evict_fold gid : forall popped P y, yinv P y -> let y' := fold_left (y_evict gid) popped y in
  yinv (fun x => P x /\ ~ In x (map snd popped)) y' /\ y_store y' = y_store y.
Proof.
  induction popped as [|e popped IH]; intros P y H; cbn [fold_left map].
  - split; [|reflexivity]. destruct H as [A B]. split; [|exact B]. eapply gall_impl; [|exact A]. cbn. tauto.
  - assert (H' : yinv (fun x => P x /\ x <> snd e) (y_evict gid y e)).
    { destruct H as [A B]. split; [now apply gall_remove|]. cbn. intros o Ho. destruct (y_orphan y) as [o'|] eqn:Eo; [apply B; congruence|].
      destruct (gget _ gid); [discriminate|]. injection Ho as <-. constructor. }
    destruct (IH _ _ H') as [[A B] C]. split; [|exact C]. split; [|exact B]. eapply gall_impl; [|exact A]. cbn. intros x [[X1 X2] X3]. split; [exact X1|].
    intros [E|E]; auto.
Qed.

Lemma ycur_sorted P gid y : yinv P y -> zsorted (y_cur gid y).
Proof.
  intros [A B]. unfold y_cur. destruct (y_orphan y) as [o|] eqn:Eo; [now apply B|]. destruct (gget (y_groups y) gid) eqn:E; [|constructor].
  now apply (gall_get P _ _ _ A E).
Qed.
Lemma yset_inv (P : Z -> Prop) gid y s : yinv P y -> zsorted s -> (y_orphan y = None -> Forall P s) -> yinv P (y_set gid y s) /\ y_store (y_set gid y s) = y_store y.
Proof.
  intros [A B] Hs HP. unfold y_set. destruct (y_orphan y) as [o|] eqn:Eo; (split; [|reflexivity]); (split; cbn).
  - exact A.
  - intros o' E. now injection E as <-.
  - apply gall_gset; auto.
  - discriminate.
Qed.
Lemma ycur_all P gid y : yinv P y -> y_orphan y = None -> Forall P (y_cur gid y).
Proof.
  intros [A B] E. unfold y_cur. rewrite E. destruct (gget (y_groups y) gid) eqn:Eg; [|constructor]. now apply (gall_get P _ _ _ A Eg).
Qed.

(** Storing one entry. *)
Lemma store_kv_ok c gid y k : cfg_ok c -> sinv c (y_store y) -> yinv (live (y_store y)) y ->
  exists y' n, store_kv c gid y k = Ok (y', n) /\ sinv c (y_store y') /\ s_static (y_store y') = s_static (y_store y) /\ yinv (live (y_store y')) y' /\
  match n with Some q => live (y_store y') q | None => True end.
Proof.
  intros Hc Hs Hy. unfold store_kv.
  destruct (kv_new _ _ _) as [h e] eqn:Ek. set (s0 := mk_storage h (s_static (y_store y)) (s_lru (y_store y))).
  pose proof (sinv_heap c _ h Hs) as Hs0. fold s0 in Hs0.
  destruct (insert_spec c s0 e Hc Hs0) as (s' & n & p & kept & E & Hs' & Est & Er & Er'). rewrite E. cbn [bind].
  eexists. exists n. split; [reflexivity|].
  assert (Hy0 : yinv (live (y_store y)) (mk_y s' (y_groups y) (y_orphan y))) by (destruct Hy; split; assumption).
  destruct (evict_fold gid p _ _ Hy0) as [Hy' Hst]. cbv zeta in Hst. rewrite Hst. cbn [y_store]. split; [exact Hs'|]. split; [exact Est|]. split.
  - destruct Hy' as [A B]. split; [|exact B]. eapply gall_impl; [|exact A]. cbn beta. intros x [Hl Hn]. unfold live, is_hg in *. rewrite Est. destruct Hl as [Hl|Hl]; [now left|].
    right. change (s_lru (y_store y)) with (s_lru s0) in Hl. rewrite Er in Hl. rewrite Er'. rewrite map_app in *. apply in_app_or in Hl as [Hl|Hl]; [contradiction|]. apply in_or_app. now left.
  - destruct n as [q|]; [|exact I]. right. rewrite Er', map_app. apply in_or_app. right. now left.
Qed.

Lemma store_loop_ok c gid : forall later y, cfg_ok c -> sinv c (y_store y) -> yinv (live (y_store y)) y ->
  exists y', store_loop c gid y later = Ok y' /\ sinv c (y_store y') /\ s_static (y_store y') = s_static (y_store y) /\ yinv (live (y_store y')) y'.
Proof.
  induction later as [|k r IH]; intros y Hc Hs Hy; cbn [store_loop]; [eauto|].
  destruct (store_kv_ok c gid y k Hc Hs Hy) as (y1 & n & E & S1 & St1 & Y1 & Hn). rewrite E. cbn [bind].
  destruct n as [q|]; [destruct (c_implicit c)|].
  - assert (Y2 : yinv (live (y_store y1)) (y_set gid y1 (zadd q (y_cur gid y1))) /\ y_store (y_set gid y1 (zadd q (y_cur gid y1))) = y_store y1).
    { apply yset_inv; [exact Y1|apply zadd_sorted; eapply ycur_sorted; eauto|]. intros Eo. apply Forall_forall. intros x Hx. apply zadd_In in Hx as [->|Hx]; [exact Hn|].
      pose proof (ycur_all _ gid y1 Y1 Eo) as F. rewrite Forall_forall in F. now apply F. }
    destruct Y2 as [Y2 E2]. destruct (IH (y_set gid y1 (zadd q (y_cur gid y1))) Hc) as (y' & E' & S' & St' & Y'); [now rewrite E2|now rewrite E2|].
    exists y'. rewrite E2 in St'. split; [exact E'|]. split; [exact S'|]. split; [congruence|exact Y'].
  - destruct (IH y1 Hc S1 Y1) as (y' & E' & S' & St' & Y'). exists y'. split; [exact E'|]. split; [exact S'|]. split; [congruence|exact Y'].
  - destruct (IH y1 Hc S1 Y1) as (y' & E' & S' & St' & Y'). exists y'. split; [exact E'|]. split; [exact S'|]. split; [congruence|exact Y'].
Qed.

Lemma adjust_loop_ok c gid : forall later y, cfg_ok c -> sinv c (y_store y) -> yinv (live (y_store y)) y ->
  exists y', adjust_loop c gid y later = Ok y' /\ sinv c (y_store y') /\ s_static (y_store y') = s_static (y_store y) /\ yinv (live (y_store y')) y'.
Proof.
  induction later as [|[k old] r IH]; intros y Hc Hs Hy; cbn [adjust_loop]; [eauto|]. cbv zeta.
  set (y0 := if zmem old (y_cur gid y) then _ else y).
  assert (Y0 : yinv (live (y_store y)) y0 /\ y_store y0 = y_store y).
  { unfold y0. destruct (zmem old (y_cur gid y)); [|auto]. apply yset_inv; [exact Hy|apply zremove_sorted; eapply ycur_sorted; eauto|].
    intros Eo. apply Forall_forall. intros x Hx. apply zremove_In in Hx as [Hx _]. pose proof (ycur_all _ gid y Hy Eo) as F. rewrite Forall_forall in F. now apply F. }
  destruct Y0 as [Y0 E0]. rewrite <- E0 in Hs, Y0. clearbody y0.
  destruct (store_kv_ok c gid y0 k Hc Hs Y0) as (y1 & n & E & S1 & St1 & Y1 & Hn). rewrite E. cbn [bind].
  destruct n as [q|].
  - assert (Y2 : yinv (live (y_store y1)) (y_set gid y1 (zadd q (y_cur gid y1))) /\ y_store (y_set gid y1 (zadd q (y_cur gid y1))) = y_store y1).
    { apply yset_inv; [exact Y1|apply zadd_sorted; eapply ycur_sorted; eauto|]. intros Eo. apply Forall_forall. intros x Hx. apply zadd_In in Hx as [->|Hx]; [exact Hn|].
      pose proof (ycur_all _ gid y1 Y1 Eo) as F. rewrite Forall_forall in F. now apply F. }
    destruct Y2 as [Y2 E2]. destruct (IH (y_set gid y1 (zadd q (y_cur gid y1))) Hc) as (y' & E' & S' & St' & Y'); [now rewrite E2|now rewrite E2|].
    exists y'. rewrite E2 in St'. split; [exact E'|]. split; [exact S'|]. split; [congruence|exact Y'].
  - destruct (IH y1 Hc S1 Y1) as (y' & E' & S' & St' & Y'). exists y'. split; [exact E'|]. split; [exact S'|]. split; [congruence|exact Y'].
Qed.

(** ** A new codec *)

Lemma storage_new_ok mb me mi : exists h0 st, storage_new mb me mi = Ok (mk_storage h0 st (lru_new (Some mb) (Some me) (Some mi) 65)) /\ static_ok st.
Proof.
  assert (B : match store_all [] (lru_new None None None 0) default_kvs with
              | Ok (_, st) => (l_offset st =? 0) && (ring_len st =? 65) && forallb (fun p => snd (snd p) =? Z.of_nat (fst p)) (combine (seq 0 65) (l_ring st))
              | Err _ => false end = true) by (vm_compute; reflexivity).
  unfold storage_new. destruct (store_all _ _ _) as [[h0 st]|]; [|discriminate]. cbn [bind]. apply andb_prop in B as [B B3]. apply andb_prop in B as [B1 B2].
  apply Z.eqb_eq in B1, B2. exists h0, st. rewrite B2. split; [reflexivity|]. split; [exact B1|]. split; [exact B2|].
  intros i x Hx. rewrite forallb_forall in B3. specialize (B3 (i, x)). cbn [fst snd] in B3. apply Z.eqb_eq. apply B3.
  assert (Hi : (i < 65)%nat). { unfold ring_len in B2. assert (i < length (l_ring st))%nat by (apply nth_error_Some; congruence). lia. }
  clear -Hx Hi. revert Hx. generalize (l_ring st). intros r Hx. apply nth_error_In with (n := i).
  assert (G : forall n a (r : list entry) i x, (i < n)%nat -> nth_error r i = Some x -> nth_error (combine (seq a n) r) i = Some ((a + i)%nat, x)).
  { induction n as [|n IH]; intros a r0 j y Hj E; [lia|]. destruct r0 as [|z r0]; [destruct j; discriminate|]. destruct j as [|j]; cbn in *.
    - injection E as ->. now rewrite Nat.add_0_r.
    - rewrite (IH (S a) r0 j y) by (auto; lia). do 2 f_equal. lia. }
  exact (G 65%nat 0%nat r i x Hi Hx).
Qed.

Lemma code_new_ok o : exists k, code_new o = Ok k /\ k_cfg k = config o /\ sinv (config o) (k_store k) /\ k_groups k = [] /\ l_ring (s_lru (k_store k)) = [].
Proof.
  unfold code_new. cbv zeta. destruct (storage_new_ok (c_max_byte_size (config o)) (c_max_entries (config o)) (c_max_index (config o))) as (h0 & st & E & Hst).
  rewrite E. cbn [bind]. eexists. split; [reflexivity|]. cbn. split; [reflexivity|]. split; [|auto]. pose proof (config_ok o) as Hc.
  split; cbn; auto.
  - apply linv_new. destruct Hc. lia.
  - unfold ring_len. cbn. lia.
Qed.
