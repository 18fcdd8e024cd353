(** * Messages of delta v1 at both ends. *)
From Coq Require Import String List NArith ZArith Bool Arith Lia Permutation Sorted.
From Verif Require Import PyBase PyStr Lib_Model Lib_Spec Lib_Proofs D2Huff_Model D2Store_Model D2Code_Model D2Code_Sets D2Code_Exec D2Code_Make D2Code_Round D2Code_Says
  D1Huff_Model D1Wire_Model D1Wire_Frame Prop_D1Wire D1Code_Model D1Code_Inv D1Code_Store D1Code_Exec.
Import ListNotations.
Open Scope Z_scope.
Open Scope py_scope.

Section Round.
Context (dk : str).

Lemma store_pairs_ok gid ps : forall c c' z, inv1 dk c -> gget (d_groups c) gid = Some z -> store_pairs dk gid c ps = Ok c' ->
  inv1 dk c' /\ grown (length ps) gid (d_groups c) (d_groups c').
Proof.
  induction ps as [|[k v] ps IH]; intros c c' z I Hg; cbn [store_pairs].
  { intros E. injection E as <-. split; [exact I|]. apply (smaller_grown _ _ gid). apply smaller_refl. }
  destruct (store_pair dk gid c (k, v)) as [c1|] eqn:E1; cbn [bind]; [|discriminate]. intros E2.
  destruct (store_pair_ok dk gid c k v c1 z I Hg E1) as (I1 & G1 & _). destruct (grown_get _ _ _ _ _ _ G1 Hg) as (z1 & Hg1).
  destruct (IH c1 c' z1 I1 Hg1 E2) as (I2 & G2). split; [exact I2|]. exact (grown_trans _ _ _ _ _ _ G1 G2).
Qed.

(** The number of entries stays within the limit, which does not change. *)
Lemma store_pairs_limits gid ps : forall c c' z, inv1 dk c -> gget (d_groups c) gid = Some z -> store_pairs dk gid c ps = Ok c' ->
  t_maxv (d_store c') = t_maxv (d_store c) /\ t_maxb (d_store c') = t_maxb (d_store c) /\
  (Z.of_nat (length (t_lru (d_store c))) <= Z.max 1 (t_maxv (d_store c)) -> Z.of_nat (length (t_lru (d_store c'))) <= Z.max 1 (t_maxv (d_store c))).
Proof.
  induction ps as [|[k v] ps IH]; intros c c' z I Hg; cbn [store_pairs].
  { intros E. injection E as <-. auto. }
  destruct (store_pair dk gid c (k, v)) as [c1|] eqn:E1; cbn [bind]; [|discriminate]. intros E2.
  destruct (store_pair_ok dk gid c k v c1 z I Hg E1) as (I1 & G1 & V1 & B1 & _ & _ & _ & L1). destruct (grown_get _ _ _ _ _ _ G1 Hg) as (z1 & Hg1).
  destruct (IH c1 c' z1 I1 Hg1 E2) as (V2 & B2 & L2). split; [congruence|]. split; [congruence|]. rewrite V1 in L2. intros H. apply L2. lia.
Qed.

Context (iter : list gop -> list N) (Hiter : forall h, Permutation (iter h) (gels h)).

(** After a message the group has no more entries than the message has pieces. *)
Lemma after_message gid c c1 z d i on later c2 c3 B : gget (d_groups c) gid = Some z -> plan c z (headers_set d) i on later ->
  inv1 dk c1 -> d_groups c1 = gset (d_groups c) gid on -> bounded B (d_groups c) -> (length (headers_set d) <= B)%nat ->
  store_pairs dk gid c1 later = Ok c2 -> adjust1 iter c2 gid = Ok c3 -> inv1 dk c3 /\ bounded B (d_groups c3).
Proof.
  intros Hg PL I1 G1 Hb Hh E2 E3. assert (Hg1 : gget (d_groups c1) gid = Some on) by (rewrite G1; apply gget_gset).
  destruct (store_pairs_ok gid later c1 c2 on I1 Hg1 E2) as (I2 & Gr). destruct (grown_get _ _ _ _ _ _ Gr Hg1) as (z2 & Hg2).
  destruct (adjust1_ok dk iter Hiter gid c2 c3 z2 I2 Hg2 E3) as (I3 & Sm & _). split; [exact I3|]. intros id y Hy.
  specialize (Sm id). rewrite Hy in Sm. destruct (gget (d_groups c2) id) as [y2|] eqn:Ey2; [|contradiction].
  specialize (Gr id). rewrite Ey2, G1, gget_gset_case in Gr. destruct (plan_lengths _ _ _ _ _ _ PL) as [Hl _].
  rewrite (N.eqb_sym id gid) in Gr. destruct (N.eqb gid id); [lia|]. destruct (gget (d_groups c) id) as [y0|] eqn:Ey0; [|contradiction]. specialize (Hb id y0 Ey0). lia.
Qed.

Lemma plan_fits c z d i on later : inv1 dk c -> plan c z (headers_set d) i on later -> headers_bytes d -> fits i.
Proof.
  intros I [P1 P2 P3 P4 P5 P6 _ P7] Hb.
  assert (Hbytes : forall kk p, In (kk, p) (headers_set d) -> is_bytes kk /\ is_bytes p).
  { intros kk p H. apply headers_set_ok, all_pairs_in in H as (v & Hv & Hp). destruct (Hb kk v Hv) as [B1 B2]. split; [exact B1|]. now apply (pieces_in kk v p Hp). }
  assert (Hsub : forall kk p, In (kk, p) (later ++ i_eref i) -> is_bytes kk /\ is_bytes p).
  { intros kk p H. apply Hbytes. eapply Permutation_in; [symmetry; exact P7|]. apply in_or_app. now right. }
  split.
  - intros x Hx. rewrite Forall_forall in P2. destruct (P2 x Hx) as (e & He & <-). pose proof (ti_range _ _ (in_t _ _ I) e He) as R. unfold idx_fits, n_defaults in *. lia.
  - intros x v Hx. rewrite Forall_forall in P4. destruct (P4 _ Hx) as [_ R]. split; [exact R|].
    apply (Hsub (fst (clone_pair (d_store c) (x, v))) v). apply in_or_app. left. rewrite P6. apply in_or_app. left.
    change (fst (clone_pair (d_store c) (x, v)), v) with (clone_pair (d_store c) (x, v)). now apply in_map.
  - intros k v Hx. apply Hsub. apply in_or_app. left. rewrite P6. apply in_or_app. now right.
  - intros k v Hx. apply Hsub. apply in_or_app. now right.
Qed.

(** The two ends read the instructions alike. *)
Lemma wire_ops i : exists tops, flat_map snd (wire_kinds i) = tops ++ lit_ops (i_clone i) (i_kvsto i) (i_eref i) /\ Forall is_toggle tops /\
  Permutation (flat_map toggled tops) (i_toggl i).
Proof.
  unfold wire_kinds. destruct (toggle_ranges (i_toggl i)) as [ot otr] eqn:E. destruct (toggle_ranges_ok _ _ _ E) as [HP HF].
  exists (map Toggl ot ++ map (fun '(s, e) => Trang e s) otr). cbn [flat_map snd]. unfold lit_ops. split; [now rewrite app_nil_r, <- !app_assoc|]. split.
  - apply Forall_app. split; apply Forall_map, Forall_forall; [intros; exact Logic.I|intros [s e] _; exact Logic.I].
  - rewrite <- HP. rewrite flat_map_app. unfold all_idx. apply Permutation_app.
    + clear. induction ot as [|a l IH]; cbn; [constructor|now apply perm_skip].
    + clear -HF. induction HF as [|[s e] l H HF IH]; cbn [map flat_map]; [constructor|]. apply Permutation_app; [|exact IH]. cbn [toggled fst snd] in *.
      unfold xrange, range_idx. cbn [fst snd]. replace (e + 1 - s) with (e - s + 1) by lia. reflexivity.
Qed.

Lemma execute1_find ord c ops gid : execute1 dk ord (mk_code1 (d_store c) (find_or_make (d_groups c) gid)) ops gid = execute1 dk ord c ops gid.
Proof. unfold execute1. cbv zeta. cbn [d_store d_groups]. now rewrite find_or_make_idem. Qed.
Lemma make1_find o c d gid : make_operations1 dk iter o (mk_code1 (d_store c) (find_or_make (d_groups c) gid)) d gid = make_operations1 dk iter o c d gid.
Proof. unfold make_operations1. cbv zeta. cbn [d_store d_groups]. now rewrite find_or_make_idem. Qed.
Lemma bounded_find B g gid : bounded B g -> bounded B (find_or_make g gid).
Proof.
  intros H. unfold find_or_make. destruct (gget g gid); [exact H|]. intros id z Hz. rewrite gget_gset_case in Hz. destruct (N.eqb gid id); [injection Hz as <-; cbn; lia|eauto].
Qed.

Lemma find_or_make_dom g gid id : gget (find_or_make g gid) id <> None -> id = gid \/ gget g id <> None.
Proof.
  unfold find_or_make. destruct (gget g gid) eqn:E; [now right|]. rewrite gget_gset_case. destruct (N.eqb_spec gid id); [now left|now right].
Qed.
Lemma grown_dom n gid g g' id : grown n gid g g' -> gget g' id <> None -> gget g id <> None.
Proof. intros H. specialize (H id). destruct (gget g id), (gget g' id); congruence || tauto. Qed.

(** The other end may iterate over groups in another order, if that makes no difference. *)
Lemma round1_any table h o ord c d gid c' blob : d1_huffman table = Ok h -> In 256%N (map fst table) ->
  inv1 dk c -> bounded 128 (d_groups c) -> order1_ok o -> (forall s, Permutation (ord s) s) -> headers_bytes d -> (gid < 256)%N -> (forall v, ~ In (dk, v) d) -> (length (headers_set d) <= 128)%nat ->
  compress1 dk iter h o c d gid = Ok (c', blob) ->
  inv1 dk c' /\ bounded 128 (d_groups c') /\ (forall id, gget (d_groups c') id <> None -> id = gid \/ gget (d_groups c) id <> None) /\
  ((N.of_nat (length blob) <= 65536)%N -> forall iter',
   (forall c2, inv1 dk c2 -> (forall id, gget (d_groups c2) id <> None -> id = gid \/ gget (d_groups c) id <> None) -> adjust1 iter' c2 gid = adjust1 iter c2 gid) ->
   exists out L, decompress1 dk iter' h ord c blob = Ok (c', out) /\ Permutation L (headers_set d) /\ out = cookie_nul (fold_left app2 L [])).
Proof.
  intros Eh Ht I Hb Ho Hord Hby Hgid Hdk Hlen. unfold compress1. rewrite <- make1_find.
  set (c0 := mk_code1 (d_store c) (find_or_make (d_groups c) gid)).
  pose proof (inv1_find dk c gid I) as I0. fold c0 in I0. destruct (find_or_make_get (d_groups c) gid) as (z & Hz). assert (Hg : gget (d_groups c0) gid = Some z) by exact Hz.
  assert (Hb0 : bounded 128 (d_groups c0)) by (now apply bounded_find).
  destruct (make1_ok dk iter o c0 d gid z I0 Hg Ho Hdk) as (i & on & later & c1 & PL & Ed & I1 & SB & G1 & Em). rewrite Em.
  destruct (store_pairs dk gid c1 later) as [c2|] eqn:E2; cbn [bind]; [|discriminate]. destruct (adjust1 iter c2 gid) as [c3|] eqn:E3; cbn [bind]; [|discriminate].
  destruct (to_wire1 h i gid) as [b|] eqn:Eb; cbn [bind]; [|discriminate]. intros E. assert (Ec : c3 = c') by congruence. assert (Ebl : b = blob) by congruence. subst c3 b. clear E.
  destruct (after_message gid c0 c1 z d i on later c2 c' 128 Hg PL I1 G1 Hb0 Hlen E2 E3) as [I3 B3]. split; [exact I3|]. split; [exact B3|].
  assert (Hg1 : gget (d_groups c1) gid = Some on) by (rewrite G1; apply gget_gset).
  destruct (store_pairs_ok gid later c1 c2 on I1 Hg1 E2) as (I2 & Gr). destruct (grown_get _ _ _ _ _ _ Gr Hg1) as (z2 & Hg2).
  destruct (adjust1_ok dk iter Hiter gid c2 c' z2 I2 Hg2 E3) as (_ & Sm & _).
  assert (D2 : forall id, gget (d_groups c2) id <> None -> id = gid \/ gget (d_groups c) id <> None).
  { intros id Hid. apply (grown_dom _ _ _ _ _ Gr) in Hid. rewrite G1, gget_gset_case in Hid. destruct (N.eqb_spec gid id); [now left|]. now apply find_or_make_dom. }
  split. { intros id Hid. apply D2. apply (smaller_grown _ _ gid) in Sm. exact (grown_dom _ _ _ _ _ Sm Hid). }
  intros Hl iter' Same.
  pose proof (plan_fits c0 z d i on later I0 PL Hby) as Hf. destruct (plan_lengths _ _ _ _ _ _ PL) as (L1 & L2 & L3 & L4).
  assert (L5 : (length (i_toggl i) <= 256)%nat) by (pose proof (pl_count _ _ _ _ _ _ PL); specialize (Hb0 gid z Hg); lia).
  assert (Er : from_wire1 h blob = Ok (gid, flat_map snd (wire_kinds i))).
  { rewrite listing_kinds. destruct (toggle_ranges (i_toggl i)) as [singles ranges] eqn:Et. cbn [fst snd].
    destruct (C42_roundtrip table h Eh Ht i gid blob Hf Hgid) as (ops & Er & _); try lia; auto. rewrite Er. do 2 f_equal.
    destruct (few_toggles _ L5) as [Ha Hb']. rewrite Et in Ha, Hb'. cbn [fst snd] in Ha, Hb'.
    destruct (C42_exactly table h Eh Ht i gid blob Hf Hgid Eb Hl singles ranges Et) as [_ X]. destruct X as (g & X); [repeat split; auto; lia|]. congruence. }
  unfold decompress1. rewrite Er. cbn [bind]. fold c0. destruct (wire_ops i) as (tops & Ew & Tt & Tp).
  destruct (plan_exec dk ord c0 z d i on later c1 gid tops I0 Hg PL Ed Tt Tp Hord) as (L & PLm & Ex). rewrite Ew, Ex, E2. cbn [bind]. rewrite (Same c2 I2 D2), E3. cbn [bind].
  eexists _, L. split; [reflexivity|]. split; [exact PLm|reflexivity].
Qed.

Lemma round1 table h o ord c d gid c' blob : d1_huffman table = Ok h -> In 256%N (map fst table) ->
  inv1 dk c -> bounded 128 (d_groups c) -> order1_ok o -> (forall s, Permutation (ord s) s) -> headers_bytes d -> (gid < 256)%N -> (forall v, ~ In (dk, v) d) -> (length (headers_set d) <= 128)%nat ->
  compress1 dk iter h o c d gid = Ok (c', blob) ->
  inv1 dk c' /\ bounded 128 (d_groups c') /\
  ((N.of_nat (length blob) <= 65536)%N -> exists out L, decompress1 dk iter h ord c blob = Ok (c', out) /\ Permutation L (headers_set d) /\ out = cookie_nul (fold_left app2 L [])).
Proof.
  intros Eh Ht I Hb Ho Hord Hby Hgid Hdk Hlen E. destruct (round1_any table h o ord c d gid c' blob Eh Ht I Hb Ho Hord Hby Hgid Hdk Hlen E) as (A & B & _ & C).
  split; [exact A|]. split; [exact B|]. intros Hl. apply C; [exact Hl|]. reflexivity.
Qed.

Lemma compress1_limits h o c d gid c' blob : inv1 dk c -> order1_ok o -> (forall v, ~ In (dk, v) d) -> compress1 dk iter h o c d gid = Ok (c', blob) ->
  t_maxv (d_store c') = t_maxv (d_store c) /\ t_maxb (d_store c') = t_maxb (d_store c) /\
  (Z.of_nat (length (t_lru (d_store c))) <= Z.max 1 (t_maxv (d_store c)) -> Z.of_nat (length (t_lru (d_store c'))) <= Z.max 1 (t_maxv (d_store c))).
Proof.
  intros I Ho Hdk. unfold compress1. rewrite <- make1_find. set (c0 := mk_code1 (d_store c) (find_or_make (d_groups c) gid)).
  pose proof (inv1_find dk c gid I) as I0. fold c0 in I0. destruct (find_or_make_get (d_groups c) gid) as (z & Hz). assert (Hg : gget (d_groups c0) gid = Some z) by exact Hz.
  destruct (make1_ok dk iter o c0 d gid z I0 Hg Ho Hdk) as (i & on & later & c1 & PL & Ed & I1 & SB & G1 & Em). rewrite Em.
  assert (Hg1 : gget (d_groups c1) gid = Some on) by (rewrite G1; apply gget_gset).
  assert (Ll : length (t_lru (d_store c1)) = length (t_lru (d_store c))).
  { pose proof (sb_lru _ _ SB) as E. apply (f_equal (@length _)) in E. now rewrite !map_length in E. }
  destruct SB as [B1 B2 B3 B4 B5 B6 B7 B8 _]. cbn [c0 d_store] in B1, B2, B3, B4, B5, B6, B7, B8.
  destruct (store_pairs dk gid c1 later) as [c2|] eqn:E2; cbn [bind]; [|discriminate]. destruct (adjust1 iter c2 gid) as [c3|] eqn:E3; cbn [bind]; [|discriminate].
  destruct (to_wire1 h i gid) as [b|] eqn:Eb; cbn [bind]; [|discriminate]. intros E. assert (c3 = c') as -> by congruence. clear E.
  destruct (store_pairs_limits gid later c1 c2 on I1 Hg1 E2) as (V2 & X2 & L2). destruct (store_pairs_ok gid later c1 c2 on I1 Hg1 E2) as (I2 & Gr).
  destruct (grown_get _ _ _ _ _ _ Gr Hg1) as (z2 & Hg2). destruct (adjust1_ok dk iter Hiter gid c2 c' z2 I2 Hg2 E3) as (_ & _ & _ & _ & _ & V3 & X3 & L3).
  split; [congruence|]. split; [congruence|]. rewrite L3, <- B7. intros H. apply L2. now rewrite Ll.
Qed.

(** With one group there is only one order. *)
Lemma one_element {A} (l l' : list A) x : NoDup l -> (forall y, In y l -> y = x) -> Permutation l' l -> l' = l.
Proof.
  intros Hn Hx Hp. destruct l as [|a [|b l]].
  - symmetry in Hp. now apply Permutation_nil in Hp.
  - symmetry in Hp. now apply Permutation_length_1_inv in Hp.
  - exfalso. inversion Hn as [|? ? N1 _]; subst. apply N1. rewrite (Hx a), (Hx b); cbn; auto.
Qed.
Lemma adjust1_same iter' gid c : (forall h, Permutation (iter' h) (gels h)) -> inv1 dk c -> (forall id, gget (d_groups c) id <> None -> id = gid) ->
  adjust1 iter' c gid = adjust1 iter c gid.
Proof.
  intros Hiter' I D. unfold adjust1. destruct (gget (d_groups c) gid) as [z|] eqn:Hg; [|reflexivity]. destruct (group_members dk c gid z I Hg) as [Hn Hm]. clear Hg.
  revert c I D Hm. induction z as [|i z IH]; intros c I D Hm; cbn [renumber_all]; [reflexivity|].
  inversion Hn as [|? ? N1 N2]; inversion Hm as [|? ? M1 M2]; subst.
  assert (E : renumber iter' gid c i = renumber iter gid c i).
  { destruct M1 as (e & He & Hi & Hd). unfold renumber. destruct (live1_look c i (ti_ids _ _ (in_t _ _ I))) as (e' & El & He' & Hi'); [exists e; auto|]. rewrite El. cbn [bind].
    assert (Ei : iter' (v_hist e') = iter (v_hist e')); [|now rewrite Ei].
    assert (U : forall y, In y (gels (v_hist e')) -> y = gid) by (intros y Hy; apply D; exact (sy_dom _ _ (in_g _ _ I) e' y He' Hy)).
    rewrite (one_element _ _ gid (gels_nodup _) U (Hiter' (v_hist e'))). symmetry. exact (one_element _ _ gid (gels_nodup _) U (Hiter (v_hist e'))). }
  rewrite E. destruct (renumber iter gid c i) as [c1|] eqn:E1; cbn [bind]; [|reflexivity].
  destruct (renumber_ok dk iter Hiter gid c i c1 I M1 E1) as (I1 & S1 & Mem & _). apply IH; auto.
  - intros id Hid. apply D. apply (smaller_grown _ _ gid) in S1. exact (grown_dom _ _ _ _ _ S1 Hid).
  - rewrite Forall_forall in M2 |- *. intros j Hj. apply Mem; [|auto]. intros ->. contradiction.
Qed.

(** ** When compression cannot fail *)

Fixpoint total (ks : list str) : Z := match ks with [] => 0 | k :: r => Z.of_nat (length k) + total r end.
Lemma total_app a b : total (a ++ b) = total a + total b.
Proof. induction a as [|k a IH]; cbn [app total]; lia. Qed.
Lemma total_nonneg a : 0 <= total a.
Proof. induction a as [|k a IH]; cbn [total]; lia. Qed.
Lemma total_perm a b : Permutation a b -> total a = total b.
Proof. induction 1; cbn [total] in *; lia. Qed.
Lemma total_incl a b : NoDup a -> incl a b -> total a <= total b.
Proof.
  revert b. induction a as [|k a IH]; intros b Hn Hi; [apply total_nonneg|]. inversion Hn as [|? ? N1 N2]; subst.
  assert (Hk : In k b) by (apply Hi; now left). apply in_split in Hk as (x & y & ->). rewrite total_app. cbn [total].
  specialize (IH (x ++ y) N2). rewrite total_app in IH. enough (incl a (x ++ y)) by (specialize (IH H); lia).
  intros q Hq. assert (Hq' : In q (x ++ k :: y)) by (apply Hi; now right). apply in_app_or in Hq' as [H|[->|H]]; [apply in_or_app; now left|contradiction|apply in_or_app; now right].
Qed.

Context (names : list str).
Record sized (t : store1) : Prop := {
  sz_nodup : NoDup (map snd (t_kidx t));
  sz_incl : incl (map snd (t_kidx t)) names;
  sz_known : forall k, In k (map snd (t_kidx t)) -> find_key (t_keys t) k <> None;
  sz_size : t_size t <= total (map snd (t_kidx t)) }.

(** Room for every name, and for one more value. *)
Definition roomy (t : store1) (v : str) : Prop := total names + Z.of_nat (length v) <= t_maxb t.

Lemma sized_new maxb maxv : sized (store1_new dk maxb maxv).
Proof. split; cbn; [constructor|intros x []|contradiction|lia]. Qed.

Lemma find_or_add_key_sized c k c' : inv1 dk c -> sized (d_store c) -> In k names -> find_or_add_key dk c k = Ok c' -> sized (d_store c').
Proof.
  intros I S Hk. unfold find_or_add_key. destruct (find_key (t_keys (d_store c)) k) as [j|] eqn:Ek; [intros E; injection E as <-; exact S|].
  destruct (make_space_ok dk None c (Z.of_nat (length k)) 0 I) as [(c1 & E1 & I1 & K1 & S1 & Z1 & _)|[E1 _]]; rewrite E1; cbn [bind]; [|discriminate].
  destruct (unused_id _ 0 (t_kid (d_store c1))) as [i|]; cbn [bind]; [|discriminate]. intros E. injection E as <-.
  destruct S as [A1 A2 A3 A4]. destruct K1 as [K1 K2 _ _ _ _ _]. rewrite K1, K2. split; cbn [d_store t_kidx t_keys t_size]; rewrite ?map_app; cbn [map snd].
  - apply NoDup_snoc; [exact A1|]. intros C. apply A3 in C. congruence.
  - intros x Hx. apply in_app_or in Hx as [Hx|[<-|[]]]; auto.
  - intros x Hx. rewrite find_key_app. apply in_app_or in Hx as [Hx|[<-|[]]]; [specialize (A3 x Hx); destruct (find_key (t_keys (d_store c)) x); congruence|].
    rewrite Ek, str_eqb_refl. discriminate.
  - rewrite total_app. cbn. lia.
Qed.

Lemma store_pair_sized gid c k v c' z : inv1 dk c -> gget (d_groups c) gid = Some z -> sized (d_store c) -> In k names -> store_pair dk gid c (k, v) = Ok c' -> sized (d_store c').
Proof.
  intros I Hg S Hk. unfold store_pair. destruct (find_or_add_key dk c k) as [c1|] eqn:E1; cbn [bind]; [|discriminate].
  pose proof (find_or_add_key_sized c k c1 I S Hk E1) as S1. destruct (find_or_add_key_ok dk c k c1 I E1) as (I1 & _).
  destruct (find_val (t_lru (d_store c1)) k v) as [e|]; [intros E; injection E as <-; exact S1|].
  destruct (make_space_ok dk (Some k) c1 (Z.of_nat (length v)) 1 I1) as [(c2 & E2 & I2 & K2 & S2 & Z2 & _)|[E2 _]]; rewrite E2; cbn [bind]; [|discriminate].
  destruct (unused_id (lru_used (t_lru (d_store c2))) n_defaults (t_lid (d_store c2))) as [i|]; cbn [bind]; [|discriminate].
  unfold do_toggle. cbv zeta. cbn [d_store t_lru d_groups]. destruct (look _ i); cbn [bind]; [|discriminate]. destruct (gget (d_groups c2) gid); [|discriminate].
  intros E. injection E as <-. destruct S1 as [A1 A2 A3 A4]. destruct K2 as [K1 K2 _ _ _ _ _].
  split; cbn [d_store set_lru t_kidx t_keys t_size]; rewrite ?K1, ?K2; auto. lia.
Qed.

Lemma store_pairs_succeed gid ps : forall c z, inv1 dk c -> gget (d_groups c) gid = Some z -> sized (d_store c) ->
  (forall k v, In (k, v) ps -> In k names /\ roomy (d_store c) v) -> Z.of_nat (length names) <= 65536 -> t_maxv (d_store c) < 65470 -> Z.of_nat (length (t_lru (d_store c))) <= Z.max 1 (t_maxv (d_store c)) ->
  exists c', store_pairs dk gid c ps = Ok c' /\ inv1 dk c' /\ sized (d_store c') /\ t_maxv (d_store c') = t_maxv (d_store c) /\ t_maxb (d_store c') = t_maxb (d_store c) /\
  Z.of_nat (length (t_lru (d_store c'))) <= Z.max 1 (t_maxv (d_store c)) /\ exists z', gget (d_groups c') gid = Some z'.
Proof.
  induction ps as [|[k v] ps IH]; intros c z I Hg S Hp Hn Hv Hl; cbn [store_pairs]; [exists c; eauto 10|].
  destruct (Hp k v (or_introl eq_refl)) as [Hk Hr]. pose proof S as [A1 A2 A3 A4]. unfold roomy in Hr.
  pose proof (total_incl _ _ A1 A2) as Ht.
  assert (R : room (d_store c) k v).
  { unfold room. split; [|split; [|lia]].
    - destruct (find_key (t_keys (d_store c)) k) eqn:Ek; [lia|].
      assert (Hs : total (map snd (t_kidx (d_store c)) ++ [k]) <= total names).
      { apply total_incl; [apply NoDup_snoc; [exact A1|intros C; apply A3 in C; congruence]|]. intros x Hx. apply in_app_or in Hx as [Hx|[<-|[]]]; auto. }
      rewrite total_app in Hs. cbn [total] in Hs. lia.
    - intros Ek. assert (Hs : incl (map snd (t_kidx (d_store c)) ++ [k]) names) by (intros x Hx; apply in_app_or in Hx as [Hx|[<-|[]]]; auto).
      apply NoDup_incl_length in Hs; [|apply NoDup_snoc; [exact A1|intros C; apply A3 in C; congruence]]. rewrite app_length, map_length in Hs. cbn [length] in Hs. lia. }
  destruct (store_pair_succeeds dk gid c k v z I Hg R) as (c1 & E1). rewrite E1. cbn [bind].
  destruct (store_pair_ok dk gid c k v c1 z I Hg E1) as (I1 & G1 & V1 & B1 & _ & _ & _ & L1). destruct (grown_get _ _ _ _ _ _ G1 Hg) as (z1 & Hg1).
  pose proof (store_pair_sized gid c k v c1 z I Hg S Hk E1) as S1.
  destruct (IH c1 z1 I1 Hg1 S1) as (c2 & E2 & I2 & S2 & V2 & B2 & L2 & Z2).
  - intros k' v' H. destruct (Hp k' v' (or_intror H)) as [X Y]. split; [exact X|]. unfold roomy in *. now rewrite B1.
  - exact Hn.
  - lia.
  - rewrite V1. destruct L1; lia.
  - exists c2. rewrite V1, B1 in *. auto 10.
Qed.

Lemma compress1_succeeds table h o c d gid : d1_huffman table = Ok h -> In 256%N (map fst table) ->
  inv1 dk c -> sized (d_store c) -> order1_ok o -> headers_bytes d -> (gid < 256)%N -> (forall v, ~ In (dk, v) d) ->
  (forall k v, In (k, v) (headers_set d) -> stored_name k -> In k names /\ roomy (d_store c) v) -> Z.of_nat (length names) <= 65536 ->
  t_maxv (d_store c) < 65470 -> Z.of_nat (length (t_lru (d_store c))) <= Z.max 1 (t_maxv (d_store c)) ->
  exists c' blob, compress1 dk iter h o c d gid = Ok (c', blob) /\ inv1 dk c' /\ sized (d_store c') /\
  t_maxv (d_store c') = t_maxv (d_store c) /\ t_maxb (d_store c') = t_maxb (d_store c) /\ Z.of_nat (length (t_lru (d_store c'))) <= Z.max 1 (t_maxv (d_store c)).
Proof.
  intros Eh Ht I Sz Ho Hby Hgid Hdk Hr Hn Hv Hl. unfold compress1. rewrite <- make1_find.
  set (c0 := mk_code1 (d_store c) (find_or_make (d_groups c) gid)).
  pose proof (inv1_find dk c gid I) as I0. fold c0 in I0. destruct (find_or_make_get (d_groups c) gid) as (z & Hz). assert (Hg : gget (d_groups c0) gid = Some z) by exact Hz.
  destruct (make1_ok dk iter o c0 d gid z I0 Hg Ho Hdk) as (i & on & later & c1 & PL & Ed & I1 & SB & G1 & Em). rewrite Em.
  assert (Hg1 : gget (d_groups c1) gid = Some on) by (rewrite G1; apply gget_gset).
  assert (Ll : length (t_lru (d_store c1)) = length (t_lru (d_store c))).
  { pose proof (sb_lru _ _ SB) as E. apply (f_equal (@length _)) in E. now rewrite !map_length in E. }
  pose proof SB as [B1 B2 B3 B4 B5 B6 B7 B8 _]. cbn [c0 d_store] in B1, B2, B3, B4, B5, B6, B7, B8.
  assert (S1 : sized (d_store c1)). { destruct Sz as [A1 A2 A3 A4]. split; rewrite ?B2, ?B1, ?B5; assumption. }
  destruct (store_pairs_succeed gid later c1 on I1 Hg1 S1) as (c2 & E2 & I2 & S2 & V2 & X2 & L2 & z2 & Hg2).
  - intros k v H. assert (Hs : stored_name k) by (pose proof (pl_stored _ _ _ _ _ _ PL) as F; rewrite Forall_forall in F; exact (F _ H)).
    destruct (Hr k v) as [R1 R2]; [|exact Hs|].
    + eapply Permutation_in; [symmetry; exact (pl_all _ _ _ _ _ _ PL)|]. apply in_or_app. right. apply in_or_app. now left.
    + split; [exact R1|]. unfold roomy in *. now rewrite B8.
  - exact Hn.
  - lia.
  - rewrite B7, Ll. exact Hl.
  - rewrite E2. cbn [bind]. destruct (adjust1_succeeds dk iter Hiter gid c2 z2 I2 Hg2 ltac:(lia)) as (c3 & E3). rewrite E3. cbn [bind].
    destruct (adjust1_ok dk iter Hiter gid c2 c3 z2 I2 Hg2 E3) as (I3 & _ & K3 & K4 & Z3 & V3 & X3 & L3).
    pose proof (plan_fits c0 z d i on later I0 PL Hby) as Hf. destruct (C42_writes table h Eh Ht i gid Hf Hgid) as (blob & Eb). rewrite Eb. cbn [bind].
    exists c3, blob. split; [reflexivity|]. split; [exact I3|]. split; [|split; [congruence|split; [congruence|rewrite L3; lia]]].
    destruct S2 as [A1 A2 A3 A4]. split; rewrite ?K4, ?K3, ?Z3; assumption.
Qed.
End Round.
