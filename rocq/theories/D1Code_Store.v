(** * Storing and renumbering entries in delta v1. *)
From Coq Require Import String List NArith ZArith Bool Arith Lia Permutation Sorted.
From Verif Require Import PyBase PyStr Lib_Model Lib_Proofs D2Store_Model D2Code_Model D2Code_Sets D1Wire_Model D1Code_Model D1Code_Inv.
Import ListNotations.
Open Scope Z_scope.
Open Scope py_scope.

(** ** When there is an unused identifier *)

Lemma unused_loop_finds used mn first u : 0 <= mn < 2 ^ 16 -> mn <= first < 2 ^ 16 -> mn <= u < 2 ^ 16 -> used u = false ->
  forall fuel idx, mn <= idx < 2 ^ 16 -> (idx - first) mod (2 ^ 16 - mn) <= (u - first) mod (2 ^ 16 - mn) ->
  (u - first) mod (2 ^ 16 - mn) - (idx - first) mod (2 ^ 16 - mn) <= Z.of_nat fuel ->
  exists i, unused_loop fuel used mn first idx = Ok i.
Proof.
  intros Hm Hf Hu Eu. set (q := 2 ^ 16 - mn). assert (Hq : 0 < q) by (unfold q; lia).
  pose proof (Z.mod_pos_bound (u - first) q Hq) as Bu.
  induction fuel as [|f IH]; intros idx Hi Hle Hfu; cbn [unused_loop]; (destruct (used idx) eqn:Ei; [|eauto]).
  all: pose proof (Z.mod_pos_bound (idx - first) q Hq) as Bi.
  all: assert (Ne : (idx - first) mod q <> (u - first) mod q).
  1, 3: intros C; assert (idx = u); [|congruence].
  1, 2: pose proof (Z.div_mod (idx - first) q ltac:(lia)) as D1; pose proof (Z.div_mod (u - first) q ltac:(lia)) as D2; rewrite C in D1;
    assert (Hd : idx - u = q * ((idx - first) / q - (u - first) / q)) by lia;
    assert (Hb : - q < idx - u < q) by (unfold q; lia);
    assert ((idx - first) / q - (u - first) / q = 0) by nia; lia.
  - exfalso. lia.
  - cbv zeta. pose proof (next_id_range mn idx ltac:(lia) ltac:(lia)) as Rn.
    assert (En : (next_id mn idx - first) mod q = (idx - first) mod q + 1).
    { transitivity ((idx + 1 - first) mod q).
      - unfold next_id. destruct (Z.leb_spec (2 ^ 16) (idx + 1)) as [L|L]; [|reflexivity]. replace (idx + 1 - first) with (mn - first + 1 * q) by (unfold q; lia).
        now rewrite Z.mod_add by lia.
      - replace (idx + 1 - first) with ((idx - first) + 1) by lia. rewrite <- (Z.add_mod_idemp_l (idx - first) 1 q) by lia. apply Z.mod_small. lia. }
    destruct (Z.eqb_spec (next_id mn idx) first) as [C|_].
    + exfalso. rewrite C, Z.sub_diag, Z.mod_0_l in En by lia. lia.
    + apply IH; [exact Rn|lia|lia].
Qed.

Lemma unused_id_finds used mn next u : 0 <= mn < 2 ^ 16 -> mn <= next < 2 ^ 16 -> mn <= u < 2 ^ 16 -> used u = false -> exists i, unused_id used mn next = Ok i.
Proof.
  intros Hm Hn Hu Eu. unfold unused_id. cbv zeta. pose proof (next_id_range mn next ltac:(lia) ltac:(lia)) as R.
  assert (Hq : 0 < 2 ^ 16 - mn) by lia. pose proof (Z.mod_pos_bound (u - next_id mn next) (2 ^ 16 - mn) Hq) as B.
  apply (unused_loop_finds used mn _ u Hm R Hu Eu); [exact R| |]; rewrite Z.sub_diag, Z.mod_0_l by lia; lia.
Qed.

(** A number from [a] on that is not in a short list. *)
Lemma pigeon (l : list Z) (a : Z) (m : Z) : Z.of_nat (length l) < m -> exists u, a <= u < a + m /\ ~ In u l.
Proof.
  intros H. set (n := Z.to_nat m). assert (Em : m = Z.of_nat n) by lia. clearbody n. subst m. apply Nat2Z.inj_lt in H. set (r := map (fun k => a + Z.of_nat k) (seq 0 n)).
  destruct (existsb (fun u => negb (zmem u l)) r) eqn:E.
  - apply existsb_exists in E as (u & Hu & Em). exists u. apply in_map_iff in Hu as (k & <- & Hk). apply in_seq in Hk. split; [lia|].
    destruct (zmem_spec (a + Z.of_nat k) l); [discriminate|assumption].
  - exfalso. assert (I : incl r l).
    { intros u Hu. destruct (zmem_spec u l) as [Hi|Hi]; [exact Hi|]. exfalso. assert (existsb (fun u => negb (zmem u l)) r = true); [|congruence].
      apply existsb_exists. exists u. split; [exact Hu|]. destruct (zmem_spec u l); [contradiction|reflexivity]. }
    apply NoDup_incl_length in I; [unfold r in I; rewrite map_length, seq_length in I; lia|].
    unfold r. apply FinFun.Injective_map_NoDup; [intros x y; lia|apply seq_NoDup].
Qed.

(** ** Keeping lists and groups together *)

Lemma sync_new l g e : sync l g -> gels (v_hist e) = [] -> sync (l ++ [e]) g.
Proof.
  intros [S1 S2 S3] He. split; [exact S1| |].
  - intros id z Hz i. rewrite (S2 id z Hz i). split.
    + intros (e' & H & R). exists e'. split; [apply in_or_app; now left|exact R].
    + intros (e' & H & Hi & Hd). apply in_app_or in H as [H|[<-|[]]]; [eauto|]. rewrite He in Hd. contradiction.
  - intros e' id H Hd. apply in_app_or in H as [H|[<-|[]]]; [eauto|]. rewrite He in Hd. contradiction.
Qed.

Lemma sync_find l g gid : sync l g -> sync l (find_or_make g gid).
Proof.
  intros S. unfold find_or_make. destruct (gget g gid) eqn:E; [exact S|]. destruct S as [S1 S2 S3]. split.
  - intros id z Hz. rewrite gget_gset_case in Hz. destruct (N.eqb gid id); [injection Hz as <-; constructor|eauto].
  - intros id z Hz i. rewrite gget_gset_case in Hz. destruct (N.eqb_spec gid id) as [<-|N]; [injection Hz as <-|eauto]. split; [contradiction|].
    intros (e & He & _ & Hd). exact (S3 e gid He Hd E).
  - intros e id He Hd. rewrite gget_gset_case. destruct (N.eqb gid id); [discriminate|eauto].
Qed.

Lemma filter_idx_in l i e : In e (filter (fun e => negb (v_idx e =? i)) l) <-> In e l /\ v_idx e <> i.
Proof. rewrite filter_In, negb_true_iff, Z.eqb_neq. reflexivity. Qed.

Lemma zremove_exact i z : zsorted z -> In i z -> S (length (zremove i z)) = length z.
Proof.
  intros Hz Hi. pose proof (zsorted_NoDup _ Hz) as Hn. clear Hz. unfold zremove. induction z as [|a z IH]; [contradiction|]. inversion Hn as [|? ? N1 N2]; subst. cbn [filter].
  destruct (Z.eqb_spec a i) as [->|Na]; cbn [negb].
  - f_equal. clear -N1. induction z as [|b z IH]; [reflexivity|]. cbn [filter]. destruct (Z.eqb_spec b i) as [->|Nb]; [exfalso; apply N1; now left|]. cbn [negb length]. f_equal. apply IH. intros C. apply N1. now right.
  - cbn [length]. f_equal. apply IH; [|exact N2]. destruct Hi as [C|Hi]; [congruence|exact Hi].
Qed.

Lemma sync_remove l g e ids : sync l g -> NoDup (map v_idx l) -> In e l -> (forall id, In id ids <-> In id (gels (v_hist e))) ->
  exists g', remove_idx g (v_idx e) ids = Ok g' /\ sync (filter (fun x => negb (v_idx x =? v_idx e)) l) g' /\
  (forall id, gget g' id = match gget g id with Some z => Some (if existsb (N.eqb id) ids then zremove (v_idx e) z else z) | None => None end).
Proof.
  intros [S1 S2 S3] Hn He Hids. destruct (remove_idx_ok (v_idx e) ids g) as (g' & E & G); [intros id Hid; apply (S3 e id He); now apply Hids|].
  exists g'. split; [exact E|]. split; [|exact G]. split.
  - intros id z Hz. rewrite G in Hz. destruct (gget g id) as [z0|] eqn:E0; [|discriminate]. injection Hz as <-. destruct (existsb _ _); [apply zremove_sorted|]; eauto.
  - intros id z Hz i. rewrite G in Hz. destruct (gget g id) as [z0|] eqn:E0; [|discriminate]. injection Hz as <-.
    assert (R : (exists e', In e' (filter (fun x => negb (v_idx x =? v_idx e)) l) /\ v_idx e' = i /\ In id (gels (v_hist e'))) <-> In i z0 /\ i <> v_idx e).
    { rewrite (S2 id z0 E0 i). split.
      - intros (e' & H & Hi & Hd). apply filter_idx_in in H as [H Hne]. split; [eauto|congruence].
      - intros [(e' & H & Hi & Hd) Hne]. exists e'. split; [apply filter_idx_in; split; [exact H|congruence]|auto]. }
    rewrite R. destruct (existsb (N.eqb id) ids) eqn:Ex; [rewrite zremove_In; reflexivity|]. split; [|tauto]. intros Hi. split; [exact Hi|]. intros ->.
    apply (S2 id z0 E0) in Hi as (e' & H & Hi & Hd). assert (e' = e) by (apply (nodup_map_eq v_idx l); auto). subst e'. apply Hids, existsb_in in Hd. congruence.
  - intros e' id H Hd. apply filter_idx_in in H as [H _]. rewrite G. destruct (gget g id) eqn:E0; [discriminate|]. intros _. exact (S3 e' id H Hd E0).
Qed.

Lemma sync_add l g id z e : sync l g -> gget g id = Some z -> gels (v_hist e) = [id] -> sync (l ++ [e]) (gset g id (zadd (v_idx e) z)).
Proof.
  intros [S1 S2 S3] Hg He. split.
  - intros id' z' Hz. rewrite gget_gset_case in Hz. destruct (N.eqb_spec id id') as [<-|N]; [injection Hz as <-; apply zadd_sorted|]; eauto.
  - intros id' z' Hz i. assert (A : (exists e', In e' (l ++ [e]) /\ v_idx e' = i /\ In id' (gels (v_hist e'))) <->
      (exists e', In e' l /\ v_idx e' = i /\ In id' (gels (v_hist e'))) \/ (i = v_idx e /\ id' = id)).
    { split.
      - intros (e' & H & Hi & Hd). apply in_app_or in H as [H|[<-|[]]]; [left; eauto|]. rewrite He in Hd. destruct Hd as [<-|[]]. right; auto.
      - intros [(e' & H & R)|[-> ->]]; [exists e'; split; [apply in_or_app; now left|exact R]|]. exists e. split; [apply in_or_app; right; now left|]. rewrite He. cbn; auto. }
    rewrite A. rewrite gget_gset_case in Hz. destruct (N.eqb_spec id id') as [<-|N].
    + injection Hz as <-. rewrite zadd_In, (S2 id z Hg i). tauto.
    + rewrite (S2 id' z' Hz i). intuition congruence.
  - intros e' id' H Hd. rewrite gget_gset_case. destruct (N.eqb_spec id id') as [<-|N]; [discriminate|]. apply in_app_or in H as [H|[<-|[]]]; [eauto|]. rewrite He in Hd. destruct Hd as [C|[]]. congruence.
Qed.

Section Store.
Context (dk : str).

(** A group may grow by [n], the others do not. *)
Definition grown (n : nat) (gid : N) (g g' : groups) : Prop := forall id, match gget g id, gget g' id with
  | Some z, Some z' => (length z' <= length z + (if N.eqb id gid then n else 0))%nat | None, None => True | _, _ => False end.
Lemma grown_trans n m gid a b c : grown n gid a b -> grown m gid b c -> grown (n + m) gid a c.
Proof. intros A B id. specialize (A id). specialize (B id). destruct (gget a id), (gget b id), (gget c id); try tauto. destruct (N.eqb id gid); lia. Qed.
Lemma smaller_grown g g' gid : smaller g g' <-> grown 0 gid g g'.
Proof. split; intros H id; specialize (H id); destruct (gget g id), (gget g' id); try tauto; destruct (N.eqb id gid); lia. Qed.
Lemma grown_get n gid g g' id z : grown n gid g g' -> gget g id = Some z -> exists z', gget g' id = Some z'.
Proof. intros H E. specialize (H id). rewrite E in H. destruct (gget g' id); [eauto|contradiction]. Qed.

(** What an entry more needs: room for the octets of the key and the value beside
    the octets of the keys, and identifiers. *)
Definition room (t : store1) (k v : str) : Prop :=
  t_size t + (match find_key (t_keys t) k with Some _ => 0 | None => Z.of_nat (length k) end) + Z.of_nat (length v) <= t_maxb t /\
  (find_key (t_keys t) k = None -> Z.of_nat (length (t_kidx t)) < 65536) /\ Z.of_nat (length (t_lru t)) < 65470.

Lemma kidx_unused t : 0 <= t_kid t < 2 ^ 16 -> Z.of_nat (length (t_kidx t)) < 65536 ->
  exists i, unused_id (fun i => match find_kidx (t_kidx t) i with Some _ => true | None => false end) 0 (t_kid t) = Ok i.
Proof.
  intros Hk Hl. destruct (pigeon (map fst (t_kidx t)) 0 65536) as (u & Hu & Hn); [rewrite map_length; exact Hl|].
  apply (unused_id_finds _ 0 _ u); try lia. destruct (find_kidx (t_kidx t) u) as [k|] eqn:E; [|reflexivity]. exfalso. apply Hn.
  clear -E. induction (t_kidx t) as [|[a b] l IH]; cbn in *; [discriminate|]. destruct (Z.eqb_spec a u); auto.
Qed.
Lemma lru_unused l lid : n_defaults <= lid < 2 ^ 16 -> Z.of_nat (length l) < 65470 -> exists i, unused_id (lru_used l) n_defaults lid = Ok i.
Proof.
  intros Hk Hl. destruct (pigeon (map v_idx l) 66 65470) as (u & Hu & Hn); [rewrite map_length; exact Hl|].
  unfold n_defaults in *. apply (unused_id_finds _ 65 _ u); try lia. unfold lru_used, is_default, n_defaults.
  replace ((1 <=? u) && (u <=? 65)) with false by (symmetry; apply andb_false_iff; right; apply Z.leb_gt; lia). cbn [orb].
  destruct (find_idx l u) as [e|] eqn:E; [|reflexivity]. exfalso. apply Hn. apply find_idx_some in E as [E1 <-]. now apply in_map.
Qed.

Lemma find_or_add_key_ok c k c' : inv1 dk c -> find_or_add_key dk c k = Ok c' ->
  inv1 dk c' /\ smaller (d_groups c) (d_groups c') /\ find_key (t_keys (d_store c')) k <> None /\
  t_maxv (d_store c') = t_maxv (d_store c) /\ t_maxb (d_store c') = t_maxb (d_store c) /\ t_size (d_store c') <= t_size (d_store c) + Z.of_nat (length k) /\
  (exists gone, t_lru (d_store c) = gone ++ t_lru (d_store c')) /\
  (forall k', find_key (t_keys (d_store c')) k' <> None <-> find_key (t_keys (d_store c)) k' <> None \/ k' = k) /\
  (find_key (t_keys (d_store c)) k <> None -> c' = c).
Proof.
  intros I. unfold find_or_add_key. destruct (find_key (t_keys (d_store c)) k) as [j|] eqn:Ek.
  { intros E. injection E as <-. rewrite Ek. split; [exact I|]. split; [apply smaller_refl|]. split; [discriminate|]. split; [reflexivity|]. split; [reflexivity|]. split; [lia|].
    split; [now exists []|]. split; [|auto]. intros k'. split; [auto|]. intros [H| ->]; congruence. }
  destruct (make_space_ok dk None c (Z.of_nat (length k)) 0 I) as [(c1 & E1 & I1 & K1 & S1 & Z1 & _)|[E1 _]]; rewrite E1; cbn [bind]; [|discriminate].
  destruct I1 as [[T1 T2 T3 T4 T5 T6 T7 T8 T9] G1]. destruct K1 as [K1 K2 K3 K4 K5 K6 K7].
  destruct (unused_id _ 0 (t_kid (d_store c1))) as [i|] eqn:Eu; cbn [bind]; [|discriminate]. intros E. injection E as <-.
  apply unused_id_ok in Eu as [Ui Ri]; [|lia|lia]. destruct (find_kidx (t_kidx (d_store c1)) i) eqn:Ef; [discriminate|].
  cbn [d_store d_groups t_keys t_kidx t_kid t_lid t_size t_num t_maxv t_maxb t_lru]. rewrite K1, K2 in *.
  assert (FK : forall k', find_key (t_keys (d_store c) ++ [(k, i)]) k' = match find_key (t_keys (d_store c)) k' with Some j => Some j | None => if str_eqb k k' then Some i else None end) by (intros; apply find_key_app).
  split; [split; [split|exact G1]|]; cbn [d_store d_groups t_keys t_kidx t_kid t_lid t_size t_num t_maxv t_maxb t_lru]; auto; try lia.
  - intros e He. rewrite FK. specialize (T5 e He). destruct (find_key (t_keys (d_store c)) (v_key e)); congruence.
  - intros k' i' H Hd. rewrite FK in H. rewrite find_kidx_app. destruct (find_key (t_keys (d_store c)) k') as [j|] eqn:Ek'.
    + injection H as <-. now rewrite (T6 k' j Ek' Hd).
    + destruct (str_eqb_spec k k') as [->|]; [|discriminate]. injection H as <-. now rewrite Ef, Z.eqb_refl.
  - intros k' i' H. rewrite FK in H. destruct (find_key (t_keys (d_store c)) k') as [j|] eqn:Ek'; [injection H as <-; eauto|].
    destruct (str_eqb_spec k k'); [injection H as <-; lia|discriminate].
  - split; [exact S1|]. split; [rewrite FK, Ek, str_eqb_refl; discriminate|]. split; [exact K5|]. split; [exact K6|]. split; [lia|]. split; [exact K7|]. split; [|congruence].
    intros k'. rewrite FK. destruct (find_key (t_keys (d_store c)) k'); [split; [left; congruence|congruence]|].
    destruct (str_eqb_spec k k') as [->|N]; split; try congruence; intros; [now right|]. destruct H; congruence.
Qed.

Lemma store_pair_ok gid c k v c' z : inv1 dk c -> gget (d_groups c) gid = Some z -> store_pair dk gid c (k, v) = Ok c' ->
  inv1 dk c' /\ grown 1 gid (d_groups c) (d_groups c') /\
  t_maxv (d_store c') = t_maxv (d_store c) /\ t_maxb (d_store c') = t_maxb (d_store c) /\ t_size (d_store c') <= t_size (d_store c) + Z.of_nat (length k) /\
  (forall k', find_key (t_keys (d_store c')) k' <> None <-> find_key (t_keys (d_store c)) k' <> None \/ k' = k) /\
  (find_key (t_keys (d_store c)) k <> None -> t_size (d_store c') <= t_size (d_store c)) /\
  ((length (t_lru (d_store c')) <= length (t_lru (d_store c)))%nat \/ Z.of_nat (length (t_lru (d_store c'))) <= Z.max 1 (t_maxv (d_store c))).
Proof.
  intros I Hg. unfold store_pair. destruct (find_or_add_key dk c k) as [c1|] eqn:E1; cbn [bind]; [|discriminate].
  destruct (find_or_add_key_ok c k c1 I E1) as (I1 & S1 & F1 & V1 & B1 & Z1 & (gone & L1) & A1 & N1).
  assert (Len1 : (length (t_lru (d_store c1)) <= length (t_lru (d_store c)))%nat) by (rewrite L1, app_length; lia).
  destruct (find_val (t_lru (d_store c1)) k v) as [e|] eqn:Ev.
  { intros E. injection E as <-. split; [exact I1|]. split; [|split; [exact V1|split; [exact B1|split; [exact Z1|split; [exact A1|split; [|left; exact Len1]]]]]].
    - apply (smaller_grown _ _ gid) in S1. intros id. specialize (S1 id). destruct (gget (d_groups c) id), (gget (d_groups c1) id); try tauto. destruct (N.eqb id gid); lia.
    - intros H. rewrite (N1 H). lia. }
  destruct (make_space_ok dk (Some k) c1 (Z.of_nat (length v)) 1 I1) as [(c2 & E2 & I2 & K2 & S2 & Z2 & R2)|[E2 _]]; rewrite E2; cbn [bind]; [|discriminate].
  destruct I2 as [[T1 T2 T3 T4 T5 T6 T7 T8 T9] G2]. destruct K2 as [K1 K3 K4 K5 K6 K7 (gone2 & K8)].
  destruct (unused_id (lru_used (t_lru (d_store c2))) n_defaults (t_lid (d_store c2))) as [i|] eqn:Eu; cbn [bind]; [|discriminate].
  apply unused_id_ok in Eu as [Ui Ri]; [|unfold n_defaults in *; lia|unfold n_defaults; lia]. unfold lru_used in Ui. apply orb_false_iff in Ui as [U1 U2].
  destruct (find_idx (t_lru (d_store c2)) i) eqn:Ef; [discriminate|]. clear U2.
  assert (Ri' : n_defaults < i < 2 ^ 16).
  { unfold is_default, n_defaults in *. apply andb_false_iff in U1 as [U1|U1]; apply Z.leb_gt in U1; lia. }
  set (t3 := mk_store1 (t_keys (d_store c2)) (t_kidx (d_store c2)) (t_kid (d_store c2)) i (t_size (d_store c2)) (t_num (d_store c2) + 1) (t_maxv (d_store c2)) (t_maxb (d_store c2))
    (t_lru (d_store c2) ++ [mk_ve i k v []])).
  assert (I3 : inv1 dk (mk_code1 t3 (d_groups c2))).
  { split; [split|]; cbn [d_store d_groups t3 t_keys t_kidx t_kid t_lid t_size t_num t_maxv t_maxb t_lru]; auto; try (unfold n_defaults in *; lia).
    - rewrite map_app. apply NoDup_snoc; [exact T1|]. cbn. intros C. apply in_map_iff in C as (e & <- & He). exact (find_idx_none _ _ Ef e He eq_refl).
    - intros e He. apply in_app_or in He as [He|[<-|[]]]; [auto|exact Ri'].
    - rewrite map_app. apply NoDup_snoc; [exact T4|]. cbn. intros C. apply in_map_iff in C as (e & Ee & He).
      apply (find_val_none _ _ _ Ev e); [rewrite K8; apply in_or_app; now right|exact Ee].
    - intros e He. apply in_app_or in He as [He|[<-|[]]]; [auto|]. cbn [v_key]. rewrite K1. exact F1.
    - rewrite T9, app_length. cbn [length]. lia.
    - apply sync_new; [exact G2|reflexivity]. }
  assert (Hs12 : smaller (d_groups c) (d_groups c2)) by (eapply smaller_trans; eauto).
  destruct (gget (d_groups c2) gid) as [z2|] eqn:Hg2; [|specialize (Hs12 gid); rewrite Hg, Hg2 in Hs12; contradiction].
  destruct (do_toggle_ok dk (mk_code1 t3 (d_groups c2)) gid i z2 I3 Hg2) as (c4 & E4 & I4 & SB & G4).
  { exists (mk_ve i k v []). split; [apply in_or_app; right; now left|reflexivity]. }
  rewrite E4. intros E. injection E as <-. cbn [d_store d_groups] in SB, G4. destruct SB as [B2 B3 B4 B5 B6 B7 B8 B9 B10]. cbn [t3 t_keys t_kidx t_kid t_lid t_size t_num t_maxv t_maxb t_lru] in *.
  assert (Len : length (t_lru (d_store c4)) = S (length (t_lru (d_store c2)))).
  { apply (f_equal (@length _)) in B10. rewrite !map_length, app_length in B10. cbn [length] in B10. lia. }
  split; [exact I4|]. split; [|split; [congruence|split; [congruence|split; [lia|split; [|split]]]]].
  - intros id. rewrite G4, gget_gset_case. specialize (Hs12 id). rewrite (N.eqb_sym id gid). destruct (N.eqb_spec gid id) as [->|N].
    + rewrite Hg, Hg2 in *. unfold ztoggle. destruct (zmem i z2); [pose proof (zremove_length i z2)|pose proof (zadd_length i z2)]; lia.
    + destruct (gget (d_groups c) id), (gget (d_groups c2) id); try tauto. lia.
  - intros k'. rewrite B2, K1. apply A1.
  - intros H. rewrite (N1 H) in *. lia.
  - right. rewrite Len. rewrite K6, V1 in R2. destruct R2 as [R2|R2]; [lia|rewrite R2; cbn [length]; lia].
Qed.

Lemma store_pair_succeeds gid c k v z : inv1 dk c -> gget (d_groups c) gid = Some z -> room (d_store c) k v -> exists c', store_pair dk gid c (k, v) = Ok c'.
Proof.
  intros I Hg (R1 & R2 & R3). unfold store_pair.
  assert (E1 : exists c1, find_or_add_key dk c k = Ok c1).
  { unfold find_or_add_key. destruct (find_key (t_keys (d_store c)) k) eqn:Ek; [eauto|].
    destruct (make_space_ok dk None c (Z.of_nat (length k)) 0 I) as [(c1 & E1 & I1 & K1 & _)|[_ C]]; [|lia]. rewrite E1. cbn [bind].
    destruct (kidx_unused (d_store c1)) as (i & Ei); [apply I1|rewrite (ke_kidx _ _ K1); now apply R2|]. rewrite Ei. cbn [bind]. eauto. }
  destruct E1 as (c1 & E1). rewrite E1. cbn [bind]. destruct (find_or_add_key_ok c k c1 I E1) as (I1 & S1 & F1 & V1 & B1 & Z1 & (gone & L1) & A1 & N1).
  assert (Len1 : (length (t_lru (d_store c1)) <= length (t_lru (d_store c)))%nat) by (rewrite L1, app_length; lia).
  destruct (find_val (t_lru (d_store c1)) k v) as [e|] eqn:Ev; [eauto|].
  destruct (make_space_ok dk (Some k) c1 (Z.of_nat (length v)) 1 I1) as [(c2 & E2 & I2 & K2 & S2 & Z2 & _)|[_ C]]; [|exfalso; destruct (find_key (t_keys (d_store c)) k) eqn:Ek; [rewrite (N1 ltac:(congruence)) in C|]; lia]. rewrite E2. cbn [bind].
  assert (Len2 : (length (t_lru (d_store c2)) <= length (t_lru (d_store c1)))%nat) by (destruct (ke_lru _ _ K2) as (x & ->); rewrite app_length; lia).
  destruct (lru_unused (t_lru (d_store c2)) (t_lid (d_store c2))) as (i & Ei); [apply I2|lia|]. rewrite Ei. cbn [bind].
  unfold do_toggle. cbn [d_store t_lru d_groups]. unfold look.
  destruct (find_idx (t_lru (d_store c2) ++ [mk_ve i k v []]) i) as [e|] eqn:Ef.
  - cbn [bind]. assert (Hs12 : smaller (d_groups c) (d_groups c2)) by (eapply smaller_trans; eauto). specialize (Hs12 gid). rewrite Hg in Hs12.
    destruct (gget (d_groups c2) gid); [eauto|contradiction].
  - exfalso. apply (find_idx_none _ _ Ef (mk_ve i k v [])); [apply in_or_app; right; now left|reflexivity].
Qed.

(** ** Renumbering *)

Context (iter : list gop -> list N) (Hiter : forall h, Permutation (iter h) (gels h)).

Lemma last_in {A} (l : list A) d : l <> [] -> In (last l d) l.
Proof.
  induction l as [|a l IH]; [congruence|]. intros _. destruct l as [|b l]; [now left|]. right. apply IH. discriminate.
Qed.

Definition member (c : code1) (gid : N) (i : Z) : Prop := exists e, In e (t_lru (d_store c)) /\ v_idx e = i /\ In gid (gels (v_hist e)).

Lemma renumber_ok gid c i c' : inv1 dk c -> member c gid i -> renumber iter gid c i = Ok c' ->
  inv1 dk c' /\ smaller (d_groups c) (d_groups c') /\ (forall j, j <> i -> member c gid j -> member c' gid j) /\
  t_keys (d_store c') = t_keys (d_store c) /\ t_kidx (d_store c') = t_kidx (d_store c) /\ t_size (d_store c') = t_size (d_store c) /\
  t_maxv (d_store c') = t_maxv (d_store c) /\ t_maxb (d_store c') = t_maxb (d_store c) /\ length (t_lru (d_store c')) = length (t_lru (d_store c)).
Proof.
  intros [T G] (e & He & Hi & Hd). pose proof T as [T1 T2 T3 T4 T5 T6 T7 T8 T9]. unfold renumber. cbv zeta.
  destruct (live1_look c i T1) as (e' & El & He' & Hi'); [exists e; auto|]. assert (e' = e) by (apply (nodup_map_eq v_idx _ _ _ T1 He' He); congruence). subst e'.
  rewrite El. cbn [bind]. clear El He' Hi'.
  assert (Hids : forall id, In id (iter (v_hist e)) <-> In id (gels (v_hist e))).
  { intros id. split; apply Permutation_in; [|symmetry]; apply Hiter. }
  destruct (sync_remove _ _ e (iter (v_hist e)) G T1 He Hids) as (g' & Eg & Sg & Gg). rewrite Hi in Eg, Gg, Sg. rewrite Eg. cbn [bind].
  set (rest := filter (fun e => negb (v_idx e =? i)) (t_lru (d_store c))) in *. set (gl := last (iter (v_hist e)) gid).
  assert (Hgl : In gl (gels (v_hist e))).
  { apply Hids. apply last_in. intros C. rewrite C in Hids. apply (Hids gid) in Hd. contradiction. }
  destruct (unused_id (lru_used rest) n_defaults (t_lid (d_store c))) as [n|] eqn:Eu; cbn [bind]; [|discriminate].
  apply unused_id_ok in Eu as [Ui Ri]; [|unfold n_defaults in *; lia|unfold n_defaults; lia]. unfold lru_used in Ui. apply orb_false_iff in Ui as [U1 U2].
  destruct (find_idx rest n) eqn:Ef; [discriminate|]. clear U2.
  assert (Ri' : n_defaults < n < 2 ^ 16).
  { unfold is_default, n_defaults in *. apply andb_false_iff in U1 as [U1|U1]; apply Z.leb_gt in U1; lia. }
  destruct (gget g' gl) as [z|] eqn:Ez; [|discriminate]. intros E. injection E as <-.
  pose proof Ez as Ez'. rewrite Gg in Ez'. destruct (gget (d_groups c) gl) as [z0|] eqn:Ez0; [|discriminate]. injection Ez' as Ez'.
  assert (Xgl : existsb (N.eqb gl) (iter (v_hist e)) = true) by (apply existsb_in; now apply Hids). rewrite Xgl in Ez'.
  assert (Iz0 : In i z0) by (apply (sy_in _ _ G gl z0 Ez0); eauto).
  pose proof (zremove_exact i z0 (sy_sorted _ _ G gl z0 Ez0) Iz0) as Lz.
  assert (Hrest : forall x, In x rest <-> In x (t_lru (d_store c)) /\ v_idx x <> i) by (intros x; apply filter_idx_in).
  assert (Lrest : S (length rest) = length (t_lru (d_store c))).
  { clear -T1 He Hi. subst rest. induction (t_lru (d_store c)) as [|a l IH]; [contradiction|]. cbn [map] in T1. inversion T1 as [|? ? N1 N2]; subst. cbn [filter].
    destruct (Z.eqb_spec (v_idx a) (v_idx e)) as [Ea|Na]; cbn [negb length].
    - f_equal. clear -N1 Ea. induction l as [|b l IH]; [reflexivity|]. cbn [filter]. destruct (Z.eqb_spec (v_idx b) (v_idx e)) as [Eb|Nb]; [exfalso; apply N1; cbn; left; congruence|]. cbn [negb length]. f_equal. apply IH. intros C. apply N1. now right.
    - f_equal. apply IH; [|exact N2]. destruct He as [->|He]; [congruence|exact He]. }
  assert (NDf : forall {B} (f : ve -> B), NoDup (map f (t_lru (d_store c))) -> NoDup (map f rest)).
  { intros B f. subst rest. clear. induction (t_lru (d_store c)) as [|a l IH]; cbn [map filter]; intros H; [constructor|]. inversion H as [|? ? N1 N2]; subst.
    destruct (negb (v_idx a =? i)); [|auto]. cbn [map]. constructor; [|auto]. intros C. apply N1. apply in_map_iff in C as (x & Ex & Hx). apply filter_In in Hx as [Hx _]. rewrite <- Ex. now apply in_map. }
  set (e1 := mk_ve n (v_key e) (v_val e) (GAdd gl :: GClear :: v_hist e)).
  split; [split; [split|]|]; cbn [d_store d_groups t_keys t_kidx t_kid t_lid t_size t_num t_maxv t_maxb t_lru]; auto.
  - rewrite map_app. apply NoDup_snoc; [now apply NDf|]. cbn. intros C. apply in_map_iff in C as (x & Ex & Hx). exact (find_idx_none _ _ Ef x Hx Ex).
  - intros x Hx. apply in_app_or in Hx as [Hx|[<-|[]]]; [apply T2; now apply Hrest|exact Ri'].
  - rewrite map_app. apply NoDup_snoc; [now apply NDf|]. cbn. intros C. apply in_map_iff in C as (x & Ex & Hx). apply Hrest in Hx as [Hx Nx].
    apply Nx. rewrite <- Hi. f_equal. apply (nodup_map_eq pair_of _ _ _ T4 Hx He). exact Ex.
  - intros x Hx. apply in_app_or in Hx as [Hx|[<-|[]]]; [apply T5; now apply Hrest|exact (T5 e He)].
  - rewrite app_length. cbn [length]. lia.
  - apply (sync_add rest g' gl z e1 Sg Ez). reflexivity.
  - split; [|split; [|repeat split; rewrite ?app_length; cbn [length]; lia]].
    + intros id. rewrite gget_gset_case. destruct (N.eqb_spec gl id) as [<-|N].
      * rewrite Ez0. pose proof (zadd_length n z). subst z. lia.
      * rewrite Gg. destruct (gget (d_groups c) id) as [y|]; [|exact I]. destruct (existsb (N.eqb id) _); [apply zremove_length|lia].
    + intros j Hj (x & Hx & Hjx & Hdx). exists x. cbn [d_store t_lru]. split; [apply in_or_app; left; apply Hrest; split; [exact Hx|congruence]|auto].
Qed.

Lemma renumber_succeeds gid c i : inv1 dk c -> member c gid i -> Z.of_nat (length (t_lru (d_store c))) < 65471 -> exists c', renumber iter gid c i = Ok c'.
Proof.
  intros [T G] (e & He & Hi & Hd) Hl. pose proof T as [T1 T2 T3 T4 T5 T6 T7 T8 T9]. unfold renumber. cbv zeta.
  destruct (live1_look c i T1) as (e' & El & He' & Hi'); [exists e; auto|]. assert (e' = e) by (apply (nodup_map_eq v_idx _ _ _ T1 He' He); congruence). subst e'.
  rewrite El. cbn [bind]. clear El He' Hi'.
  assert (Hids : forall id, In id (iter (v_hist e)) <-> In id (gels (v_hist e))).
  { intros id. split; apply Permutation_in; [|symmetry]; apply Hiter. }
  destruct (sync_remove _ _ e (iter (v_hist e)) G T1 He Hids) as (g' & Eg & Sg & Gg). rewrite Hi in Eg, Gg, Sg. rewrite Eg. cbn [bind].
  set (rest := filter (fun e => negb (v_idx e =? i)) (t_lru (d_store c))) in *.
  assert (Lrest : (length rest < length (t_lru (d_store c)))%nat).
  { clear -He Hi. subst rest. induction (t_lru (d_store c)) as [|a l IH]; [contradiction|]. cbn [filter].
    assert (F : forall l0 : list ve, (length (filter (fun e => negb (v_idx e =? i)%Z) l0) <= length l0)%nat) by (induction l0 as [|b l0 IHl]; cbn [filter length]; [lia|]; destruct (negb _); cbn [length]; lia).
    destruct He as [->|He]; [rewrite Hi, Z.eqb_refl; cbn [negb length]; specialize (F l); lia|]. specialize (IH He). destruct (negb _); cbn [length]; lia. }
  destruct (lru_unused rest (t_lid (d_store c)) T3 ltac:(lia)) as (n & En). rewrite En. cbn [bind].
  set (gl := last (iter (v_hist e)) gid).
  assert (Hgl : In gl (gels (v_hist e))).
  { apply Hids. apply last_in. intros C. rewrite C in Hids. apply (Hids gid) in Hd. contradiction. }
  rewrite Gg. destruct (gget (d_groups c) gl) as [z|] eqn:E; [eauto|]. exfalso. exact (sy_dom _ _ G e gl He Hgl E).
Qed.

Lemma renumber_all_ok gid is : forall c c', NoDup is -> inv1 dk c -> Forall (member c gid) is -> renumber_all iter gid c is = Ok c' ->
  inv1 dk c' /\ smaller (d_groups c) (d_groups c') /\
  t_keys (d_store c') = t_keys (d_store c) /\ t_kidx (d_store c') = t_kidx (d_store c) /\ t_size (d_store c') = t_size (d_store c) /\
  t_maxv (d_store c') = t_maxv (d_store c) /\ t_maxb (d_store c') = t_maxb (d_store c) /\ length (t_lru (d_store c')) = length (t_lru (d_store c)).
Proof.
  induction is as [|i is IH]; intros c c' Hn I Hm; cbn [renumber_all].
  { intros E. injection E as <-. split; [exact I|]. split; [apply smaller_refl|]. auto 10. }
  inversion Hn as [|? ? N1 N2]; inversion Hm as [|? ? M1 M2]; subst. destruct (renumber iter gid c i) as [c1|] eqn:E1; cbn [bind]; [|discriminate].
  destruct (renumber_ok gid c i c1 I M1 E1) as (I1 & S1 & Mem & A1 & A0 & A2 & A3 & A4 & A5). intros E2.
  destruct (IH c1 c' N2 I1) as (I2 & S2 & B1 & B0 & B2 & B3 & B4 & B5); [|exact E2|].
  - rewrite Forall_forall in *. intros j Hj. apply Mem; [intros ->; contradiction|auto].
  - split; [exact I2|]. split; [eapply smaller_trans; eauto|]. repeat split; congruence.
Qed.
Lemma renumber_all_succeeds gid is : forall c, NoDup is -> inv1 dk c -> Forall (member c gid) is -> Z.of_nat (length (t_lru (d_store c))) < 65471 ->
  exists c', renumber_all iter gid c is = Ok c'.
Proof.
  induction is as [|i is IH]; intros c Hn I Hm Hl; cbn [renumber_all]; [eauto|].
  inversion Hn as [|? ? N1 N2]; inversion Hm as [|? ? M1 M2]; subst. destruct (renumber_succeeds gid c i I M1 Hl) as (c1 & E1). rewrite E1. cbn [bind].
  destruct (renumber_ok gid c i c1 I M1 E1) as (I1 & S1 & Mem & A1 & A0 & A2 & A3 & A4 & A5). apply IH; [exact N2|exact I1| |lia].
  rewrite Forall_forall in *. intros j Hj. apply Mem; [intros ->; contradiction|auto].
Qed.

Lemma group_members c gid z : inv1 dk c -> gget (d_groups c) gid = Some z -> NoDup z /\ Forall (member c gid) z.
Proof.
  intros [T [S1 S2 S3]] Hg. split; [eapply zsorted_NoDup, S1; eauto|]. apply Forall_forall. intros i Hi. now apply (S2 gid z Hg).
Qed.

Lemma adjust1_ok gid c c' z : inv1 dk c -> gget (d_groups c) gid = Some z -> adjust1 iter c gid = Ok c' ->
  inv1 dk c' /\ smaller (d_groups c) (d_groups c') /\
  t_keys (d_store c') = t_keys (d_store c) /\ t_kidx (d_store c') = t_kidx (d_store c) /\ t_size (d_store c') = t_size (d_store c) /\
  t_maxv (d_store c') = t_maxv (d_store c) /\ t_maxb (d_store c') = t_maxb (d_store c) /\ length (t_lru (d_store c')) = length (t_lru (d_store c)).
Proof.
  intros I Hg. unfold adjust1. rewrite Hg. destruct (group_members c gid z I Hg) as [A B]. now apply renumber_all_ok.
Qed.
Lemma adjust1_succeeds gid c z : inv1 dk c -> gget (d_groups c) gid = Some z -> Z.of_nat (length (t_lru (d_store c))) < 65471 -> exists c', adjust1 iter c gid = Ok c'.
Proof.
  intros I Hg Hl. unfold adjust1. rewrite Hg. destruct (group_members c gid z I Hg) as [A B]. now apply renumber_all_succeeds.
Qed.

End Store.
