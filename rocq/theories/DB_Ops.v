(** * delta_bohe: what one call of MakeOperations does. *)
From Coq Require Import String List NArith ZArith Bool Arith Lia ZifyN ZifyNat Permutation.
From Verif Require Import PyBase PyStr BB_Model D2Huff_Model D1Huff_Model D1Wire_Model D1Wire_Frame Small_Model Bohe_Model DB_Model DB_Proofs.
Import ListNotations.
Open Scope Z_scope.
Open Scope py_scope.

(** ** Inserting without losing anything *)

(** Nothing can be lost while [n] pairs are added. *)
Definition calm (n : Z) (t : table) : Prop := b_old t = [] \/ b_num t + n <= max_vals.
Definition total (ks : list str) : Z := fold_right (fun k n => slen k + n) 0 ks.

Lemma slen_nonneg s : 0 <= slen s. Proof. unfold slen. lia. Qed.
Lemma total_cons k ks : total (k :: ks) = slen k + total ks. Proof. reflexivity. Qed.
Lemma total_app a b : total (a ++ b) = total a + total b.
Proof. induction a as [|k a IH]; [reflexivity|]. cbn [app]. rewrite !total_cons, IH. lia. Qed.
Lemma total_nonneg ks : 0 <= total ks.
Proof. induction ks as [|k ks IH]; [reflexivity|]. rewrite total_cons. pose proof (slen_nonneg k). lia. Qed.
Lemma make_space_calm refs t s a : calm a t -> make_space refs t s a = Ok t \/ (make_space refs t s a = Err NameError /\ max_state_size < b_size t + s).
Proof.
  intros C. unfold make_space. destruct (Z.ltb_spec max_vals (b_num t + a)).
  - left. destruct C as [C|C]; [|lia]. unfold pop_one. now rewrite C.
  - destruct (Z.ltb_spec max_state_size (b_size t + s)); [right; split; [reflexivity|assumption]|now left].
Qed.
Lemma insert_val_calm refs gen t k v : wf t -> calm 1 t -> ~ In (k, v) (map pair_of (entries t)) ->
  (insert_val refs gen t k v = Err NameError /\ max_state_size < b_size t + (match key_index (b_keys t) k with Some _ => 0 | None => slen k end) + slen v) \/
  exists t', insert_val refs gen t k v = Ok t' /\ b_old t' = b_old t /\
    b_size t' = b_size t + (match key_index (b_keys t) k with Some _ => 0 | None => slen k end) /\
    b_keys t' = b_keys t ++ (match key_index (b_keys t) k with Some _ => [] | None => [(k, b_nkey t + 1)] end).
Proof.
  intros W C Hn. unfold insert_val.
  assert (A : (add_key refs t k = Err NameError /\ max_state_size < b_size t + (match key_index (b_keys t) k with Some _ => 0 | None => slen k end)) \/
    exists t1, add_key refs t k = Ok t1 /\ b_def t1 = b_def t /\ b_old t1 = b_old t /\ b_new t1 = b_new t /\ b_num t1 = b_num t /\
      b_size t1 = b_size t + (match key_index (b_keys t) k with Some _ => 0 | None => slen k end) /\
      b_keys t1 = b_keys t ++ (match key_index (b_keys t) k with Some _ => [] | None => [(k, b_nkey t + 1)] end)).
  { unfold add_key. destruct (key_index (b_keys t) k).
    - right. exists t. rewrite app_nil_r. repeat split; lia.
    - assert (C0 : calm 0 t) by (destruct C as [C|C]; [left; exact C|right; lia]).
      destruct (make_space_calm refs t (slen k) 0 C0) as [->|[-> H]]; cbn [bind]; [right|left; split; [reflexivity|exact H]].
      eexists. split; [reflexivity|]. cbn [b_def b_old b_new b_num b_size b_keys]. repeat split. }
  pose proof (slen_nonneg k) as Hk. pose proof (slen_nonneg v) as Hv.
  destruct A as [[-> H]|(t1 & -> & D1 & O1 & N1 & M1 & S1 & K1)]; cbn [bind]; [left; split; [reflexivity|lia]|].
  assert (E1 : entries t1 = entries t) by (unfold entries; now rewrite D1, O1, N1).
  replace (find_entry t1 k v) with (@None entry).
  2:{ symmetry. apply find_entry_none. now rewrite E1. }
  assert (C1 : calm 1 t1) by (unfold calm; rewrite O1, M1; exact C).
  destruct (make_space_calm (k :: refs) t1 (slen v) 1 C1) as [->|[-> H]]; cbn [bind].
  - right. eexists. split; [reflexivity|]. cbn [b_old b_size b_keys]. auto.
  - left. split; [reflexivity|]. lia.
Qed.

Definition absent (t : table) (p : str * str) : Prop := ~ In p (map pair_of (entries t)).
Lemma inserted_absent gen p t t' q : inserted gen [p] t t' -> b_old t' = b_old t -> absent t q -> p <> q -> absent t' q.
Proof.
  intros [_ D _ _ _ (es & N & P & _)] O Hq Hne C. apply Hq. unfold entries in *. rewrite D, O, N in C. rewrite !map_app in *. rewrite P in C.
  rewrite !in_app_iff in *. cbn [In] in C. intuition.
Qed.
Definition sized (t : table) : Prop := b_size t = total (map fst (b_keys t)).
Lemma total_incl ks : NoDup ks -> forall K, incl ks K -> total ks <= total K.
Proof.
  induction 1 as [|k ks Hk _ IH]; intros K H; [apply total_nonneg|]. destruct (in_split k K (H k (or_introl eq_refl))) as (a & b & ->).
  rewrite total_app, !total_cons. specialize (IH (a ++ b)). rewrite total_app in IH. assert (Hi : incl ks (a ++ b)).
  { intros x Hx. specialize (H x (or_intror Hx)). rewrite in_app_iff in *. destruct H as [H|[H|H]]; [tauto| |tauto]. subst. contradiction. }
  specialize (IH Hi). lia.
Qed.
Lemma sized_new t k : wf t -> sized t -> forall K, incl (map fst (b_keys t)) K -> In k K -> b_size t + (match key_index (b_keys t) k with Some _ => 0 | None => slen k end) <= total K.
Proof.
  intros W S K HK Hk. rewrite S. destruct (key_index (b_keys t) k) eqn:E.
  - pose proof (total_incl _ (wf_names t W) K HK). lia.
  - pose proof (total_incl (k :: map fst (b_keys t))) as H. rewrite total_cons in H. enough (slen k + total (map fst (b_keys t)) <= total K) by lia. apply H.
    + constructor; [|apply W]. apply key_index_none. exact E.
    + intros x [<-|Hx]; [exact Hk|now apply HK].
Qed.
Lemma insert_all_calm refs gen : forall ps t, wf t -> NoDup ps -> Forall (absent t) ps -> calm (Z.of_nat (length ps)) t ->
  (insert_all refs gen t ps = Err NameError /\ (sized t -> forall K, incl (map fst (b_keys t) ++ map fst ps) K -> exists p, In p ps /\ max_state_size < total K + slen (snd p))) \/
  exists t', insert_all refs gen t ps = Ok t' /\ b_old t' = b_old t /\ inserted gen ps t t' /\ (sized t -> sized t') /\ incl (map fst (b_keys t')) (map fst (b_keys t) ++ map fst ps).
Proof.
  induction ps as [|[k v] ps IH]; intros t W Hn Ha C.
  - right. exists t. split; [reflexivity|]. split; [reflexivity|]. split; [now apply inserted_nil|]. split; [auto|]. rewrite app_nil_r. apply incl_refl.
  - inversion Hn as [|? ? Hni Hn']; subst. inversion Ha as [|? ? Ha1 Ha']; subst. cbn [insert_all].
    assert (C1 : calm 1 t) by (destruct C as [C|C]; [left; exact C|right; cbn [length] in C; lia]).
    destruct (insert_val_calm refs gen t k v W C1 Ha1) as [[-> H]|(t1 & E1 & O1 & S1 & K1)].
    { left. split; [reflexivity|]. intros S K HK. exists (k, v). split; [now left|]. cbn [snd]. pose proof (sized_new t k W S K) as Hb.
      assert (In k K) by (apply HK; apply in_app_iff; right; now left). assert (incl (map fst (b_keys t)) K) by (intros x Hx; apply HK; apply in_app_iff; now left). specialize (Hb H1 H0). lia. }
    rewrite E1. cbn [bind]. pose proof (insert_val_ok _ _ _ _ _ _ W E1) as I1.
    assert (M1 : b_num t1 = b_num t + 1).
    { destruct (in_old _ _ _ _ I1) as (p & Ep & ->). rewrite O1 in Ep. apply (f_equal (@length _)) in Ep. rewrite app_length in Ep. cbn [length]. lia. }
    assert (Sz : sized t -> sized t1).
    { intros Hs. unfold sized in *. rewrite S1, K1, map_app, total_app, Hs. destruct (key_index (b_keys t) k); cbn [map fst total fold_right]; lia. }
    destruct (IH t1) as [[-> H]|(t' & E' & O' & I' & S' & K')].
    + apply I1.
    + exact Hn'.
    + rewrite Forall_forall in *. intros q Hq. apply (inserted_absent gen (k, v) t t1); [exact I1|exact O1|now apply Ha'|]. intros <-. contradiction.
    + destruct C as [C|C]; [left; congruence|right; cbn [length] in C; lia].
    + left. split; [reflexivity|]. intros S K HK. destruct (H (Sz S) K) as (p & Hp & Hm); [|exists p; split; [now right|exact Hm]].
      intros x Hx. apply HK. rewrite K1, (map_app fst (b_keys t)) in Hx. rewrite in_app_iff. rewrite !in_app_iff in Hx. cbn [map fst In]. destruct (key_index (b_keys t) k); cbn [map fst In] in Hx; tauto.
    + right. exists t'. split; [exact E'|]. split; [congruence|]. split; [change ((k, v) :: ps) with ([(k, v)] ++ ps); eapply inserted_trans; eassumption|]. split.
      * intros Hs. now apply S', Sz.
      * intros x Hx. apply K' in Hx. rewrite K1 in Hx. rewrite map_app in Hx. rewrite !in_app_iff in *. cbn [map fst In]. destruct (key_index (b_keys t) k); cbn [map fst In] in Hx; tauto.
Qed.

(** ** Clones and stores are insertions *)

Definition is_clone (t : table) (p : str * str) : bool :=
  match find_entry t (fst p) (snd p) with Some _ => false | None => match key_index (b_keys t) (fst p) with Some _ => true | None => false end end.
Definition is_kvsto (t : table) (p : str * str) : bool :=
  match find_entry t (fst p) (snd p) with Some _ => false | None => match key_index (b_keys t) (fst p) with Some _ => false | None => true end end.
Definition news (t : table) (ps : list (str * str)) : list (str * str) := filter (is_clone t) ps ++ filter (is_kvsto t) ps.

Lemma run_clones_insert L refs gen t0 : NoDup (map snd (b_keys t0)) -> forall ps t more, wf t -> b_keys t = b_keys t0 ++ more ->
  run_clones refs gen t (flat_map (clone_of L t0) ps) = insert_all refs gen t (filter (is_clone t0) ps).
Proof.
  intros N0. induction ps as [|[k v] ps IH]; intros t more W K; [reflexivity|]. cbn [flat_map filter]. unfold clone_of at 1, is_clone at 1. cbn [fst snd].
  destruct (find_entry t0 k v); [now apply (IH t more)|]. destruct (key_index (b_keys t0) k) as [n|] eqn:Ek; [|now apply (IH t more)].
  cbn [app run_clones insert_all]. rewrite K, (key_at_in _ _ _ N0 (key_index_in _ _ _ Ek)). destruct (insert_val refs gen t k v) as [t1|] eqn:E1; [|reflexivity]. cbn [bind].
  pose proof (insert_val_ok _ _ _ _ _ _ W E1) as I1. destruct (in_keys _ _ _ _ I1) as (m & Km). apply (IH t1 (more ++ m)); [apply I1|]. now rewrite Km, K, app_assoc.
Qed.
Lemma run_kvstos_insert L refs gen t0 : forall ps t, run_kvstos refs gen t (flat_map (kvsto_of L t0) ps) = insert_all refs gen t (filter (is_kvsto t0) ps).
Proof.
  induction ps as [|[k v] ps IH]; intros t; [reflexivity|]. cbn [flat_map filter]. unfold kvsto_of at 1, is_kvsto at 1. cbn [fst snd].
  destruct (find_entry t0 k v); [apply IH|]. destruct (key_index (b_keys t0) k) as [n|] eqn:Ek; [apply IH|].
  cbn [app run_kvstos insert_all]. destruct (insert_val refs gen t k v) as [t1|]; [|reflexivity]. cbn [bind]. apply IH.
Qed.

Lemma news_in t ps p : In p (news t ps) <-> In p ps /\ absent t p.
Proof.
  unfold news, absent. rewrite in_app_iff, !filter_In. unfold is_clone, is_kvsto. destruct p as [k v]. cbn [fst snd].
  destruct (find_entry t k v) eqn:E.
  - assert (In (k, v) (map pair_of (entries t))). { apply find_entry_some in E. destruct E as [Hi <-]. now apply in_map. } intuition discriminate.
  - apply find_entry_none in E. destruct (key_index (b_keys t) k); intuition discriminate.
Qed.
Lemma news_nodup t ps : NoDup ps -> NoDup (news t ps).
Proof.
  intros H. unfold news. apply NoDup_app_i; [now apply NoDup_filter|now apply NoDup_filter|]. intros p Hp Hq. apply filter_In in Hp, Hq. destruct Hp as [_ Hp], Hq as [_ Hq].
  unfold is_clone, is_kvsto in *. destruct (find_entry t (fst p) (snd p)); [discriminate|]. destruct (key_index (b_keys t) (fst p)); discriminate.
Qed.
Lemma news_regen f t ps : news (each (regen f) t) ps = news t ps.
Proof.
  unfold news. f_equal; apply filter_ext; intros p; unfold is_clone, is_kvsto; rewrite find_regen; destruct (find_entry t (fst p) (snd p)); reflexivity.
Qed.

(** ** Renumbering *)

Definition core (e : entry) : str * str * option N := (pair_of e, e_gen e).
Record adjusted (t t' : table) : Prop := mk_adjusted {
  ad_wf : wf t';
  ad_keys : b_keys t' = b_keys t;
  ad_size : b_size t' = b_size t;
  ad_num : b_num t' = b_num t;
  ad_new : b_new t' = [];
  ad_def : map core (b_def t') = map core (b_def t);
  ad_old : Permutation (map core (b_old t')) (map core (b_old t)) }.
Lemma ad_entries t t' : b_new t = [] -> adjusted t t' -> Permutation (map core (entries t')) (map core (entries t)).
Proof.
  intros Hn [_ _ _ _ Hn' Hd Ho]. unfold entries. rewrite Hn, Hn', !app_nil_r, !map_app, Hd. now apply Permutation_app_head.
Qed.
Lemma adjusted_refl t : wf t -> b_new t = [] -> adjusted t t.
Proof. intros W H. constructor; auto. Qed.
Lemma adjusted_trans a b c : adjusted a b -> adjusted b c -> adjusted a c.
Proof. intros [W1 K1 S1 M1 N1 D1 O1] [W2 K2 S2 M2 N2 D2 O2]. constructor; try congruence. now rewrite O2. Qed.

Lemma filter_split {A} (f : A -> bool) l : Permutation (filter (fun x => negb (f x)) l ++ filter f l) l.
Proof.
  induction l as [|a l IH]; [constructor|]. cbn [filter]. destruct (f a); cbn [negb].
  - rewrite <- Permutation_middle. now constructor.
  - cbn [app]. now constructor.
Qed.
Lemma NoDup_map_in {A B} (f : A -> B) l : NoDup l -> (forall x y, In x l -> In y l -> f x = f y -> x = y) -> NoDup (map f l).
Proof.
  induction l as [|a l IH]; [constructor|]. intros H Hi. inversion H as [|? ? Hn Hd]; subst. cbn [map]. constructor.
  - intros C. apply in_map_iff in C. destruct C as (x & E & Hx). assert (x = a) by (apply Hi; [now right|now left|exact E]). now subst.
  - apply IH; [exact Hd|]. intros x y Hx Hy. apply Hi; now right.
Qed.
Definition renum (i n : Z) (e : entry) : entry := if e_idx e =? i then mk_entry n (e_key e) (e_val e) (e_gen e) else e.
Lemma renum_core i n e : core (renum i n e) = core e.
Proof. unfold renum. destruct (e_idx e =? i); reflexivity. Qed.
Lemma perm_wf t t' : wf t -> Permutation (map pair_of (entries t')) (map pair_of (entries t)) -> NoDup (map e_idx (entries t')) ->
  Forall (fun e => 0 < e_idx e <= b_nlru t') (entries t') -> b_keys t' = b_keys t -> b_nkey t' = b_nkey t -> b_num t' = b_num t -> 0 <= b_nlru t' -> wf t'.
Proof.
  intros [H1 H2 H3 H4 H5 H6 H7 H8 H9 H10] P Hi Hl Hk Hnk Hm Hn. constructor; rewrite ?Hk, ?Hnk; try assumption.
  - eapply Permutation_NoDup; [apply Permutation_sym; exact P|exact H3].
  - rewrite Forall_forall in *. intros e He. apply (in_map pair_of) in He. apply (Permutation_in _ P) in He. apply in_map_iff in He. destruct He as (x & Ex & Hx).
    specialize (H4 x Hx). replace (e_key e) with (fst (pair_of e)) by reflexivity. now rewrite <- Ex.
  - apply Permutation_length in P. rewrite !map_length in P. lia.
Qed.
Lemma pairs_of_cores l m : Permutation (map core l) (map core m) -> Permutation (map pair_of l) (map pair_of m).
Proof. intros P. apply (Permutation_map fst) in P. rewrite !map_map in P. exact P. Qed.
Lemma renumber_one_ok t i : wf t -> b_new t = [] -> adjusted t (renumber_one t i) /\ b_nlru (renumber_one t i) = b_nlru t + 1 /\
  Permutation (entries (renumber_one t i)) (map (renum i (b_nlru t + 1)) (entries t)).
Proof.
  intros W Hn. set (n := b_nlru t + 1).
  assert (P : Permutation (entries (renumber_one t i)) (map (renum i n) (entries t))).
  { unfold entries, renumber_one. cbn [b_def b_old b_new]. rewrite Hn, !app_nil_r, (map_app (renum i n) (b_def t)). apply (Permutation_app_head (map (renum i n) (b_def t))). apply (Permutation_map (renum i n)).
    apply filter_split. }
  assert (Pc : Permutation (map core (entries (renumber_one t i))) (map core (entries t))).
  { rewrite P, map_map. rewrite (map_ext _ _ (renum_core i n)). reflexivity. }
  split; [|split; [reflexivity|exact P]]. constructor; try reflexivity.
  - pose proof (wf_idx t W) as H1. pose proof (wf_low t W) as H2. pose proof (wf_lru t W) as H10. apply (perm_wf t); [assumption|now apply pairs_of_cores| | |reflexivity|reflexivity|reflexivity|cbn; lia].
    + eapply Permutation_NoDup; [apply Permutation_map, Permutation_sym; exact P|]. rewrite map_map. rewrite Forall_forall in H2.
      apply NoDup_map_in; [apply (NoDup_map_inv e_idx), H1|]. intros x y Hx Hy E. apply (NoDup_map_inj e_idx _ _ _ H1 Hx Hy).
      pose proof (H2 x Hx). pose proof (H2 y Hy). unfold renum, n in E. destruct (Z.eqb_spec (e_idx x) i), (Z.eqb_spec (e_idx y) i); cbn [e_idx] in E; lia.
    + eapply Permutation_Forall; [apply Permutation_sym; exact P|]. rewrite Forall_map. eapply Forall_impl, H2. intros e He. cbn beta in He. unfold renumber_one. cbn [b_nlru].
      unfold renum, n. destruct (e_idx e =? i); cbn [e_idx]; lia.
  - exact Hn.
  - cbn [renumber_one b_def]. rewrite map_map. apply map_ext. intros e. apply (renum_core i n).
  - cbn [renumber_one b_old]. rewrite map_map. rewrite (map_ext _ _ (renum_core i n)). apply Permutation_map, filter_split.
Qed.

Lemma grouped_core e e' : core e = core e' -> grouped e = grouped e'.
Proof. unfold core, grouped. intros E. assert (e_gen e = e_gen e') as -> by congruence. reflexivity. Qed.
Lemma renumber_all_ok t0 : forall l t, wf t -> b_new t = [] -> NoDup l -> b_nlru t0 <= b_nlru t -> (forall i, In i l -> i <= b_nlru t0) ->
  Forall (fun e => grouped e = true -> b_nlru t0 < e_idx e \/ In (e_idx e) l) (entries t) ->
  let t' := fold_left renumber_one l t in
  adjusted t t' /\ b_nlru t' = b_nlru t + Z.of_nat (length l) /\ Forall (fun e => grouped e = true -> b_nlru t0 < e_idx e) (entries t').
Proof.
  induction l as [|i l IH]; intros t W Hn Hd Hle Hl Hg; cbn [fold_left].
  - split; [now apply adjusted_refl|]. split; [cbn; lia|]. eapply Forall_impl, Hg. intros e H Ge. destruct (H Ge) as [H'|[]]. exact H'.
  - destruct (renumber_one_ok t i W Hn) as (A & En & P). inversion Hd; subst. destruct (IH (renumber_one t i)) as (A' & En' & F'); try assumption.
    + apply A.
    + lia.
    + intros j Hj. apply Hl. now right.
    + eapply Permutation_Forall; [apply Permutation_sym; exact P|]. rewrite Forall_map. rewrite Forall_forall in *. intros e He Ge.
      rewrite (grouped_core _ e (renum_core _ _ e)) in Ge. destruct (Hg e He Ge) as [H'|[H'|H']].
      * unfold renum. destruct (e_idx e =? i); cbn [e_idx]; [left; lia|now left].
      * unfold renum. rewrite H', Z.eqb_refl. cbn [e_idx]. left. lia.
      * unfold renum. destruct (e_idx e =? i); cbn [e_idx]; [left; lia|now right].
    + split; [eapply adjusted_trans; eassumption|]. split; [rewrite En', En; cbn [length]; lia|exact F'].
Qed.
Lemma adjust_ok t : wf t -> b_new t = [] -> adjusted t (adjust t) /\
  b_nlru (adjust t) = b_nlru t + Z.of_nat (length (filter grouped (entries t))) /\
  Forall (fun e => grouped e = true -> b_nlru t < e_idx e) (entries (adjust t)).
Proof.
  intros W Hn. unfold adjust. set (is := map e_idx (filter grouped (entries t))).
  destruct (renumber_all_ok t (sort_z is) t) as (A & B & C); try assumption.
  - eapply Permutation_NoDup; [apply Permutation_sym, sort_z_perm|]. apply NoDup_map_filter, W.
  - lia.
  - intros i Hi. apply (Permutation_in _ (sort_z_perm is)) in Hi. apply in_map_iff in Hi. destruct Hi as (e & <- & He). apply filter_In in He.
    pose proof (wf_low t W) as Hl. rewrite Forall_forall in Hl. specialize (Hl e (proj1 He)). cbn beta in Hl. lia.
  - apply Forall_forall. intros e He Ge. right. apply (Permutation_in _ (Permutation_sym (sort_z_perm is))). apply in_map. apply filter_In. auto.
  - split; [exact A|]. split; [|exact C]. rewrite B. rewrite (Permutation_length (sort_z_perm is)). unfold is. now rewrite map_length.
Qed.

(** ** A whole call *)

Definition aged (gen : N) (t : table) : Prop := Forall (fun e => forall g, e_gen e = Some g -> (g < gen)%N) (entries t).
Definition codec_ok (c : codec) : Prop := wf (c_table c) /\ b_new (c_table c) = [] /\ aged (c_gen c) (c_table c).
Lemma aged_stale gen t : aged gen t -> stale gen t.
Proof. intros H. eapply Forall_impl, H. intros e He C. apply He in C. lia. Qed.

Lemma toggle_each_gen gen : forall is t, (forall i, In i is -> In i (map e_idx (entries t))) ->
  exists f, toggle_each gen t is = Ok (each (regen f) t) /\ forall e, f e = e_gen e \/ f e = None \/ f e = Some gen.
Proof.
  induction is as [|i is IH]; intros t H.
  - exists e_gen. split; [|now left]. cbn [toggle_each]. rewrite (each_ext _ (fun e => e)); [now rewrite each_id|]. now intros [a k v g] _.
  - cbn [toggle_each]. unfold toggle. replace (existsb (fun e => e_idx e =? i) (entries t)) with true.
    2:{ symmetry. apply existsb_exists. destruct (proj1 (in_map_iff _ _ _) (H i (or_introl eq_refl))) as (e & Ee & Hi). exists e. split; [exact Hi|]. now apply Z.eqb_eq. }
    cbn [bind]. set (g := fun e => if e_idx e =? i then match e_gen e with Some _ => None | None => Some gen end else e_gen e).
    assert (Eg : each (fun e => if e_idx e =? i then set_gen (match e_gen e with Some _ => None | None => Some gen end) e else e) t = each (regen g) t).
    { apply each_ext. intros [a k v x] _. unfold regen, g. cbn. destruct (a =? i); reflexivity. }
    rewrite Eg. destruct (IH (each (regen g) t)) as (f & -> & Hf).
    { intros j Hj. rewrite each_entries, map_map. apply H. now right. }
    exists (fun e => f (regen g e)). split; [rewrite each_each; reflexivity|]. intros e. destruct (Hf (regen g e)) as [E|E]; [|tauto]. rewrite E. cbn [regen set_gen e_gen]. unfold g.
    destruct (e_idx e =? i); [|now left]. destruct (e_gen e); tauto.
Qed.

Definition refs_of (t : table) (headers : list (str * str)) : list str :=
  filter (fun k => match key_index (b_keys t) k with Some _ => true | None => false end) (map fst headers).
Definition instrs_of (L : library) (ord : list Z -> list Z) (gen : N) (t : table) (ps : list (str * str)) : instrs :=
  mk_instrs (flat_map (toggl_of t) ps ++ turn_offs ord gen (each (regen (touched gen ps)) t)) (flat_map (clone_of L t) ps) (flat_map (kvsto_of L t) ps).

Lemma make_operations_ok L ord c headers ps : codec_ok c -> ord_ok ord -> pieces L headers = Ok ps ->
  let (t, gen) := (c_table c, c_gen c) in
  exists f, (forall e, In e (entries t) -> f e = e_gen e \/ f e = None \/ f e = Some gen) /\ (NoDup ps -> forall e, In e (entries t) -> f e = in_group gen ps e) /\
    make_operations L ord c headers =
    let* t2 := insert_all (refs_of t headers) gen (each (regen f) t) (news t ps) in
    Ok (mk_codec (adjust (unpin t2)) (gen + 1)%N, instrs_of L ord gen t ps).
Proof.
  intros (W & Hn & Ha) Ho Ep. set (t := c_table c) in *. set (gen := c_gen c) in *.
  assert (T : exists f, (forall e, In e (entries t) -> f e = e_gen e \/ f e = None \/ f e = Some gen) /\ (NoDup ps -> forall e, In e (entries t) -> f e = in_group gen ps e) /\
    toggle_each gen (each (regen (touched gen ps)) t) (n_toggl (instrs_of L ord gen t ps)) = Ok (each (regen f) t)).
  { destruct (toggle_each_gen gen (n_toggl (instrs_of L ord gen t ps)) (each (regen (touched gen ps)) t)) as (f & Ef & Hf).
    - intros i Hi. rewrite each_entries, map_map. change (fun x => e_idx (regen (touched gen ps) x)) with e_idx. cbn [instrs_of n_toggl] in Hi. apply in_app_iff in Hi. destruct Hi as [Hi|Hi].
      + apply toggl_in in Hi; [|exact W]. destruct Hi as (e & He & _ & _ & <-). now apply in_map.
      + apply turn_offs_in in Hi; [|exact Ho|now apply aged_stale]. destruct Hi as (e & He & _ & _ & <-). now apply in_map.
    - exists (fun e => f (regen (touched gen ps) e)). rewrite Ef, each_each. split; [|split; [|reflexivity]].
      + intros e _. destruct (Hf (regen (touched gen ps) e)) as [E|E]; [|tauto]. rewrite E. cbn [regen set_gen e_gen]. unfold touched. destruct (grouped e && has ps e); tauto.
      + intros Hnd e He. pose proof (toggled_ok ord gen t ps W (aged_stale _ _ Ha) Ho Hnd) as E. cbv zeta in E. cbn [instrs_of n_toggl] in Ef. rewrite Ef in E.
        assert (E' : each (regen f) (each (regen (touched gen ps)) t) = each (regen (in_group gen ps)) t) by congruence. rewrite each_each in E'.
        apply (f_equal entries) in E'. rewrite !each_entries in E'. apply ext_in_map with (a := e) in E'; [|exact He]. apply (f_equal e_gen) in E'. exact E'. }
  destruct T as (f & H1 & H2 & Et). exists f. split; [exact H1|]. split; [exact H2|].
  unfold make_operations. fold t. fold gen. rewrite process_flat, Ep. cbn [bind]. rewrite process_closed by exact W. cbn [bind n_toggl n_clone n_kvsto].
  change (flat_map (toggl_of t) ps ++ turn_offs ord gen (each (regen (touched gen ps)) t)) with (n_toggl (instrs_of L ord gen t ps)).
  rewrite Et. cbn [bind]. unfold news. rewrite insert_all_app. rewrite (run_clones_insert L _ _ t (wf_kidx t W) ps _ []); [|now apply regen_wf|symmetry; apply app_nil_r].
  fold (refs_of t headers). rewrite bind_assoc. destruct (insert_all _ _ _ (filter (is_clone t) ps)) as [t1|]; [|reflexivity]. cbn [bind].
  rewrite run_kvstos_insert. reflexivity.
Qed.
Lemma make_operations_pieces L ord c headers e : pieces L headers = Err e -> make_operations L ord c headers = Err e.
Proof. intros E. unfold make_operations. rewrite process_flat, E. reflexivity. Qed.

Lemma unpin_entries t : entries (unpin t) = entries t.
Proof. unfold entries, unpin. cbn [b_def b_old b_new]. now rewrite app_nil_r. Qed.
Lemma unpin_wf t : wf t -> wf (unpin t).
Proof. intros [H1 H2 H3 H4 H5 H6 H7 H8 H9 H10]. constructor; rewrite ?unpin_entries; assumption. Qed.

Definition core_as (f : entry -> option N) (e : entry) : str * str * option N := (pair_of e, f e).
(** What remains after a call, whatever the message. *)
Record called (gen : N) (f : entry -> option N) (ps popped : list (str * str)) (kept : list entry) (t t' : table) : Prop := mk_called {
  cl_kept : exists gone, map pair_of gone = popped /\ b_old t = gone ++ kept;
  cl_def : map core (b_def t') = map (core_as f) (b_def t);
  cl_old : Permutation (map core (b_old t')) (map (core_as f) kept ++ map (fun p => (p, Some gen)) (news t ps));
  cl_nlru : b_nlru t' = b_nlru t + Z.of_nat (length (news t ps)) + Z.of_nat (length (filter grouped (entries t')));
  cl_low : Forall (fun e => grouped e = true -> b_nlru t + Z.of_nat (length (news t ps)) < e_idx e) (entries t');
  cl_num : b_num t' = b_num t + Z.of_nat (length (news t ps)) - Z.of_nat (length popped);
  cl_keys : exists more, b_keys t' = b_keys t ++ more }.
Lemma core_new gen es ps : map pair_of es = ps -> Forall (fun e => e_gen e = Some gen) es -> map core es = map (fun p => (p, Some gen)) ps.
Proof.
  intros <- H. rewrite map_map. apply map_ext_in. intros e He. rewrite Forall_forall in H. unfold core. now rewrite (H e He).
Qed.
Lemma called_i gen f ps t t2 : b_new t = [] -> inserted gen (news t ps) (each (regen f) t) t2 ->
  let t' := adjust (unpin t2) in
  wf t' /\ b_new t' = [] /\ b_size t' = b_size t2 /\ b_keys t' = b_keys t2 /\ exists popped kept, called gen f ps popped kept t t' /\ (b_old t2 = map (regen f) kept).
Proof.
  intros Hn [W2 D2 L2 K2 (pop & O2 & M2) (es & N2 & P2 & F2)]. cbn [each b_def b_nlru b_keys b_old b_num b_new] in *. rewrite Hn in N2. cbn [map app] in N2.
  destruct (adjust_ok (unpin t2) (unpin_wf _ W2) eq_refl) as (A & Bn & Fl). cbv zeta. set (t' := adjust (unpin t2)) in *.
  split; [apply A|]. split; [apply A|]. split; [apply A|]. split; [apply A|].
  pose proof (map_eq_app _ _ _ _ O2) as (gone & kept & Eo & Egone & Ekept). exists (map pair_of gone), kept. split; [|now symmetry].
  assert (Efix : forall l, map core (map (regen f) l) = map (core_as f) l) by (intros l; now rewrite map_map).
  constructor.
  - exists gone. auto.
  - rewrite (ad_def _ _ A). cbn [unpin b_def]. now rewrite D2, Efix.
  - rewrite (ad_old _ _ A). cbn [unpin b_old]. rewrite map_app, <- Ekept, Efix, N2. apply Permutation_app_head.
    rewrite (core_new gen es (news t ps)); [reflexivity|exact P2|]. eapply Forall_impl, F2. intros e He. apply He.
  - rewrite Bn. cbn [unpin b_nlru]. rewrite L2. f_equal. f_equal. pose proof (ad_entries (unpin t2) t' eq_refl A) as P.
    assert (G : forall l, length (filter grouped l) = length (filter (fun c : str * str * option N => match snd c with Some _ => true | None => false end) (map core l))).
    { induction l as [|e l IH]; [reflexivity|]. cbn [map filter]. change (match snd (core e) with Some _ => true | None => false end) with (grouped e). destruct (grouped e); cbn [length]; now rewrite IH. }
    rewrite !G. apply Permutation_sym in P. clear - P. induction P; cbn [filter]; try lia.
    + destruct (snd x); cbn [length]; lia.
    + destruct (snd x), (snd y); cbn [length]; lia.
  - eapply Forall_impl, Fl. intros e He. cbn [unpin b_nlru] in He. rewrite L2 in He. exact He.
  - rewrite (ad_num _ _ A). cbn [unpin b_num]. rewrite M2. rewrite map_length, <- Egone, map_length. reflexivity.
  - rewrite (ad_keys _ _ A). exact K2.
Qed.
Lemma called_cores gen f ps popped kept t t' : b_new t = [] -> b_new t' = [] -> called gen f ps popped kept t t' ->
  Permutation (map core (entries t')) (map (core_as f) (b_def t ++ kept) ++ map (fun p => (p, Some gen)) (news t ps)).
Proof.
  intros Hn Hn' C. unfold entries. rewrite Hn', app_nil_r, map_app, (cl_def _ _ _ _ _ _ _ C), (map_app (core_as f) (b_def t)), <- app_assoc. apply Permutation_app_head, (cl_old _ _ _ _ _ _ _ C).
Qed.
Lemma call_ok L ord c headers c' i : codec_ok c -> ord_ok ord -> make_operations L ord c headers = Ok (c', i) ->
  codec_ok c' /\ c_gen c' = (c_gen c + 1)%N /\ exists ps, pieces L headers = Ok ps /\ i = instrs_of L ord (c_gen c) (c_table c) ps /\
  exists f popped kept, (NoDup ps -> forall e, In e (entries (c_table c)) -> f e = in_group (c_gen c) ps e) /\ called (c_gen c) f ps popped kept (c_table c) (c_table c').
Proof.
  intros Hc Ho E. destruct (pieces L headers) as [ps|e] eqn:Ep; [|rewrite (make_operations_pieces _ _ _ _ _ Ep) in E; discriminate].
  destruct (make_operations_ok L ord c headers ps Hc Ho Ep) as (f & H1 & H2 & Em). rewrite E in Em. destruct Hc as (W & Hn & Ha).
  destruct (insert_all _ _ _ _) as [t2|] eqn:Ei; [|discriminate]. cbn [bind] in Em.
  assert (Ec : c' = mk_codec (adjust (unpin t2)) (c_gen c + 1)%N) by congruence. assert (Eii : i = instrs_of L ord (c_gen c) (c_table c) ps) by congruence.
  pose proof (insert_all_ok _ _ _ _ _ (regen_wf f _ W) Ei) as I. destruct (called_i _ _ _ _ _ Hn I) as (W' & Hn' & _ & _ & popped & kept & C & _).
  subst c'. cbn [c_table c_gen]. split; [|split; [reflexivity|]].
  - split; [exact W'|]. split; [exact Hn'|]. cbn [c_table c_gen]. unfold aged. apply Forall_forall. intros e He g Eg. apply (in_map core) in He.
    apply (Permutation_in _ (called_cores _ _ _ _ _ _ _ Hn Hn' C)) in He. apply in_app_iff in He. destruct He as [He|He].
    + apply in_map_iff in He. destruct He as (x & Ex & Hx). assert (Hxe : In x (entries (c_table c))).
      { destruct (cl_kept _ _ _ _ _ _ _ C) as (gone & _ & Eo). unfold entries. rewrite Eo. rewrite !in_app_iff in *. tauto. }
      assert (Ef : f x = Some g) by (unfold core, core_as in Ex; congruence). unfold aged in Ha. rewrite Forall_forall in Ha.
      destruct (H1 x Hxe) as [E1|[E1|E1]]; rewrite E1 in Ef; [apply (Ha x Hxe) in Ef; lia|discriminate|]. assert (g = c_gen c) by congruence. lia.
    + apply in_map_iff in He. destruct He as (p & Ex & _). unfold core in Ex. assert (g = c_gen c) by congruence. lia.
  - exists ps. split; [reflexivity|]. split; [exact Eii|]. exists f, popped, kept. split; [exact H2|exact C].
Qed.

Lemma pair_dec (a b : str * str) : {a = b} + {a <> b}.
Proof. repeat decide equality. Defined.
(** The headers a table says are in force. *)
Definition group (t : table) : list (str * str) := map pair_of (filter grouped (entries t)).
Lemma group_cores t p : In p (group t) <-> exists g, In (p, Some g) (map core (entries t)).
Proof.
  unfold group. rewrite in_map_iff. split.
  - intros (e & <- & He). apply filter_In in He. destruct He as [He G]. unfold grouped in G. destruct (e_gen e) as [g|] eqn:Eg; [|discriminate]. exists g. apply in_map_iff. exists e. split; [unfold core; now rewrite Eg|exact He].
  - intros (g & H). apply in_map_iff in H. destruct H as (e & Ee & He). unfold core in Ee. exists e. split; [congruence|]. apply filter_In. split; [exact He|]. unfold grouped. now replace (e_gen e) with (Some g) by congruence.
Qed.
Lemma group_nodup t : wf t -> NoDup (group t).
Proof. intros W. unfold group. apply NoDup_map_filter, W. Qed.

(** A call whose pieces are distinct and for which nothing has to be thrown away. *)
Lemma call_calm L ord c headers ps : codec_ok c -> ord_ok ord -> pieces L headers = Ok ps -> NoDup ps ->
  calm (Z.of_nat (length (news (c_table c) ps))) (c_table c) ->
  (make_operations L ord c headers = Err NameError /\ (sized (c_table c) -> forall K, incl (map fst (b_keys (c_table c)) ++ map fst ps) K -> exists p, In p ps /\ max_state_size < total K + slen (snd p))) \/
  exists c', make_operations L ord c headers = Ok (c', instrs_of L ord (c_gen c) (c_table c) ps) /\ codec_ok c' /\ c_gen c' = (c_gen c + 1)%N /\
    Permutation (map core (entries (c_table c'))) (map (core_as (in_group (c_gen c) ps)) (entries (c_table c)) ++ map (fun p => (p, Some (c_gen c))) (news (c_table c) ps)) /\
    Permutation (group (c_table c')) ps /\
    (sized (c_table c) -> sized (c_table c')) /\ incl (map fst (b_keys (c_table c'))) (map fst (b_keys (c_table c)) ++ map fst ps) /\
    b_nlru (c_table c') = b_nlru (c_table c) + Z.of_nat (length (news (c_table c) ps)) + Z.of_nat (length ps) /\
    Forall (fun e => grouped e = true -> b_nlru (c_table c) + Z.of_nat (length (news (c_table c) ps)) < e_idx e) (entries (c_table c')).
Proof.
  intros Hc Ho Ep Hnd C. destruct (make_operations_ok L ord c headers ps Hc Ho Ep) as (f & _ & H2 & Em). pose proof Hc as (W & Hn & Ha).
  set (t := c_table c) in *. set (gen := c_gen c) in *. specialize (H2 Hnd).
  assert (Ea : each (regen f) t = each (regen (in_group gen ps)) t) by (apply each_ext; intros e He; unfold regen; now rewrite H2).
  destruct (insert_all_calm (refs_of t headers) gen (news t ps) (each (regen f) t)) as [[Ei H]|(t2 & Ei & Eo & I & Hs & Hk)].
  - now apply regen_wf.
  - now apply news_nodup.
  - apply Forall_forall. intros p Hp. apply news_in in Hp. unfold absent. rewrite each_entries, map_map. exact (proj2 Hp).
  - destruct C as [C|C]; [left; unfold each; cbn [b_old]; now rewrite C|right; exact C].
  - left. rewrite Em, Ei. split; [reflexivity|]. intros S K HK. destruct (H S K) as (p & Hp & Hm).
    + intros x Hx. apply HK. cbn [each b_keys] in Hx. rewrite in_app_iff in *. destruct Hx as [Hx|Hx]; [now left|right]. apply in_map_iff in Hx. destruct Hx as (p & <- & Hp). apply in_map. now apply news_in in Hp.
    + exists p. split; [now apply news_in in Hp|exact Hm].
  - right. rewrite Em, Ei. cbn [bind]. eexists. split; [reflexivity|]. cbn [c_table c_gen].
    destruct (call_ok L ord c headers (mk_codec (adjust (unpin t2)) (gen + 1)%N) (instrs_of L ord gen t ps) Hc Ho) as (Hc' & _ & _).
    { rewrite Em, Ei. reflexivity. }
    split; [exact Hc'|]. split; [reflexivity|]. rewrite Ea in I. destruct (called_i _ _ _ _ _ Hn I) as (W' & Hn' & Es & Ek & popped & kept & Cl & Ekept).
    assert (Ekt : kept = b_old t).
    { rewrite Eo in Ekept. cbn [each b_old] in Ekept. destruct (cl_kept _ _ _ _ _ _ _ Cl) as (gone & _ & Eg). rewrite Eg in Ekept |- *. apply (f_equal (@length _)) in Ekept. rewrite !map_length, app_length in Ekept.
      destruct gone; [reflexivity|cbn [length] in Ekept; lia]. }
    subst kept. pose proof (called_cores _ _ _ _ _ _ _ Hn Hn' Cl) as P. assert (Een : b_def t ++ b_old t = entries t) by (unfold entries; now rewrite Hn, app_nil_r).
    rewrite Een in P. split; [exact P|].
    assert (G : Permutation (group (adjust (unpin t2))) ps).
    { apply NoDup_Permutation; [now apply group_nodup|exact Hnd|]. intros p. rewrite group_cores. split.
      - intros (g & H). apply (Permutation_in _ P) in H. apply in_app_iff in H. destruct H as [H|H].
        + apply in_map_iff in H. destruct H as (e & Ee & He). unfold core_as, in_group in Ee. destruct (has ps e) eqn:Eh; [|congruence]. replace p with (pair_of e) by congruence. now apply has_in.
        + apply in_map_iff in H. destruct H as (q & Eq & Hq). replace p with q by congruence. now apply news_in in Hq.
      - intros Hp. exists gen. apply (Permutation_in _ (Permutation_sym P)). apply in_app_iff. destruct (in_dec pair_dec p (map pair_of (entries t))) as [Hi|Hi].
        + left. apply in_map_iff in Hi. destruct Hi as (e & <- & He). apply in_map_iff. exists e. split; [|exact He]. unfold core_as, in_group. replace (has ps e) with true; [reflexivity|]. symmetry. now apply has_in.
        + right. apply in_map_iff. exists p. split; [reflexivity|]. apply news_in. split; assumption. }
    split; [exact G|]. split.
    { intros S. unfold sized. rewrite Es, Ek. apply Hs. exact S. }
    split.
    { rewrite Ek. intros k Hkk. apply Hk in Hkk. cbn [each b_keys] in Hkk. rewrite in_app_iff in *. destruct Hkk as [Hkk|Hkk]; [now left|right]. apply in_map_iff in Hkk. destruct Hkk as (p & <- & Hp). apply in_map. now apply news_in in Hp. }
    split; [|exact (cl_low _ _ _ _ _ _ _ Cl)]. rewrite (cl_nlru _ _ _ _ _ _ _ Cl). f_equal. f_equal. apply Permutation_length in G. unfold group in G. rewrite map_length in G. exact G.
Qed.
