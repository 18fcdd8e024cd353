(** * Proofs about delta_bohe's tables. *)
From Coq Require Import String List NArith ZArith Bool Arith Lia ZifyN ZifyNat Permutation.
From Verif Require Import PyBase PyStr BB_Model D2Huff_Model D1Huff_Model D1Wire_Model Small_Model Bohe_Model DB_Model.
Import ListNotations.
Open Scope Z_scope.
Open Scope py_scope.

Lemma str_eqb_eq a b : str_eqb a b = true <-> a = b.
Proof. destruct (str_eqb_spec a b); split; congruence. Qed.
Lemma NoDup_app_i {A} (a b : list A) : NoDup a -> NoDup b -> (forall x, In x a -> ~ In x b) -> NoDup (a ++ b).
Proof.
  induction a as [|x a IH]; intros Ha Hb Hd; [exact Hb|]. cbn [app]. inversion Ha; subst. constructor.
  - rewrite in_app_iff. intros [C|C]; [contradiction|]. apply (Hd x); [now left|exact C].
  - apply IH; [assumption|exact Hb|]. intros y Hy. apply Hd. now right.
Qed.

Definition pair_of (e : entry) : str * str := (e_key e, e_val e).
Definition pair_eqb (p q : str * str) : bool := str_eqb (fst p) (fst q) && str_eqb (snd p) (snd q).
Definition has (ps : list (str * str)) (e : entry) : bool := existsb (pair_eqb (pair_of e)) ps.

Lemma pair_eqb_eq p q : pair_eqb p q = true <-> p = q.
Proof.
  destruct p as [a b], q as [c d]. unfold pair_eqb. cbn [fst snd]. rewrite andb_true_iff, !str_eqb_eq.
  split; [intros [-> ->]; reflexivity|intros E; inversion E; auto].
Qed.
Lemma has_in ps e : has ps e = true <-> In (pair_of e) ps.
Proof.
  unfold has. rewrite existsb_exists. split.
  - intros (q & Hq & E). apply pair_eqb_eq in E. now subst.
  - intros H. exists (pair_of e). split; [exact H|]. now apply pair_eqb_eq.
Qed.

(** ** The pairs of a message *)

Fixpoint pieces (L : library) (headers : list (str * str)) : res (list (str * str)) :=
  match headers with
  | [] => Ok []
  | (k, v) :: r =>
      let* ws := map_res (bohe_encode L k) (values_of k v) in
      let* ps := pieces L r in
      Ok (map (pair k) ws ++ ps)
  end.
Definition process_piece (L : library) (gen : N) (s : table * instrs) (p : str * str) : table * instrs :=
  process_kv L gen (fst s) (snd s) (fst p) (snd p).

Lemma bind_assoc {A B C} (r : res A) (f : A -> res B) (g : B -> res C) :
  (let* y := (let* x := r in f x) in g y) = (let* x := r in let* y := f x in g y).
Proof. destruct r; reflexivity. Qed.

Lemma process_values_flat L gen k vs : forall t i, process_values L gen t i k vs =
  let* ws := map_res (bohe_encode L k) vs in Ok (fold_left (process_piece L gen) (map (pair k) ws) (t, i)).
Proof.
  induction vs as [|v vs IH]; intros t i; [reflexivity|]. cbn [process_values map_res]. destruct (bohe_encode L k v) as [w|e]; [|reflexivity].
  cbn [bind]. destruct (process_kv L gen t i k w) as [t' i'] eqn:E. rewrite IH. rewrite !bind_assoc. destruct (map_res (bohe_encode L k) vs); [|reflexivity].
  cbn [bind map fold_left]. unfold process_piece at 3. cbn [fst snd]. now rewrite E.
Qed.
Lemma process_flat L gen headers : forall t i, process_headers L gen t i headers =
  let* ps := pieces L headers in Ok (fold_left (process_piece L gen) ps (t, i)).
Proof.
  induction headers as [|[k v] r IH]; intros t i; [reflexivity|]. cbn [process_headers pieces]. rewrite process_values_flat, !bind_assoc.
  destruct (map_res (bohe_encode L k) (values_of k v)) as [ws|e]; [|reflexivity]. cbn [bind].
  destruct (fold_left (process_piece L gen) (map (pair k) ws) (t, i)) as [t' i'] eqn:E. rewrite IH, bind_assoc. destruct (pieces L r); [|reflexivity].
  cbn [bind]. now rewrite fold_left_app, E.
Qed.

(** ** Well-formed tables *)

Record wf (t : table) : Prop := mk_wf {
  wf_idx : NoDup (map e_idx (entries t));
  wf_low : Forall (fun e => 0 < e_idx e <= b_nlru t) (entries t);
  wf_pair : NoDup (map pair_of (entries t));
  wf_key : Forall (fun e => In (e_key e) (map fst (b_keys t))) (entries t);
  wf_names : NoDup (map fst (b_keys t));
  wf_kidx : NoDup (map snd (b_keys t));
  wf_klow : Forall (fun p => 0 < snd p <= b_nkey t) (b_keys t);
  wf_kn : b_nkey t = Z.of_nat (length (b_keys t));
  wf_num : b_num t = Z.of_nat (length (entries t));
  wf_lru : 0 <= b_nlru t }.

Lemma each_entries f t : entries (each f t) = map f (entries t).
Proof. unfold entries, each. cbn. now rewrite !map_app. Qed.
Lemma each_each f g t : each f (each g t) = each (fun e => f (g e)) t.
Proof. unfold each. cbn. now rewrite !map_map. Qed.
Lemma each_ext f g t : (forall e, In e (entries t) -> f e = g e) -> each f t = each g t.
Proof.
  intros H. unfold each. unfold entries in H. f_equal; apply map_ext_in; intros e He; apply H; rewrite !in_app_iff; tauto.
Qed.
Lemma each_id t : each (fun e => e) t = t.
Proof. unfold each. rewrite !map_id. now destruct t. Qed.

(** Changing generations only. *)
Definition regen (f : entry -> option N) (e : entry) : entry := set_gen (f e) e.
Lemma regen_wf f t : wf t -> wf (each (regen f) t).
Proof.
  intros [H1 H2 H3 H4 H5 H6 H7 H8 H9 H10]. constructor; rewrite ?each_entries; cbn [each b_keys b_nkey b_nlru b_num]; try assumption.
  - rewrite map_map. exact H1.
  - rewrite Forall_map. exact H2.
  - rewrite map_map. exact H3.
  - rewrite Forall_map. exact H4.
  - rewrite map_length. exact H9.
Qed.

Lemma find_entry_some t k v e : find_entry t k v = Some e -> In e (entries t) /\ pair_of e = (k, v).
Proof.
  unfold find_entry. intros H. apply find_some in H. destruct H as [Hi H]. apply andb_true_iff in H. rewrite !str_eqb_eq in H.
  split; [exact Hi|]. destruct H as [<- <-]. reflexivity.
Qed.
Lemma find_entry_none t k v : find_entry t k v = None <-> ~ In (k, v) (map pair_of (entries t)).
Proof.
  unfold find_entry. split.
  - intros H Hin. apply in_map_iff in Hin. destruct Hin as (e & Ee & Hi). pose proof (find_none _ _ H e Hi) as C. cbn in C.
    inversion Ee; subst. rewrite !str_eqb_refl in C. discriminate.
  - intros H. destruct (find _ (entries t)) as [e|] eqn:E; [|reflexivity]. exfalso. apply H.
    change (find_entry t k v = Some e) in E. apply find_entry_some in E. destruct E as [Hi Ee]. rewrite <- Ee. now apply in_map.
Qed.
Lemma NoDup_map_inj {A B} (f : A -> B) l x y : NoDup (map f l) -> In x l -> In y l -> f x = f y -> x = y.
Proof.
  induction l as [|a l IH]; [contradiction|]. cbn [map]. intros H Hx Hy E. inversion H as [|? ? Hn Hd]; subst.
  destruct Hx as [->|Hx], Hy as [->|Hy]; [reflexivity| | |now apply IH].
  - exfalso. apply Hn. rewrite E. now apply in_map.
  - exfalso. apply Hn. rewrite <- E. now apply in_map.
Qed.
Lemma find_entry_in t e : wf t -> In e (entries t) -> find_entry t (e_key e) (e_val e) = Some e.
Proof.
  intros W Hi. destruct (find_entry t (e_key e) (e_val e)) as [e'|] eqn:E.
  - apply find_entry_some in E. destruct E as [Hi' Ee]. f_equal. exact (NoDup_map_inj pair_of _ _ _ (wf_pair t W) Hi' Hi Ee).
  - exfalso. apply (proj1 (find_entry_none _ _ _) E). apply (in_map pair_of) in Hi. exact Hi.
Qed.
Lemma find_regen f t k v : find_entry (each (regen f) t) k v = option_map (regen f) (find_entry t k v).
Proof.
  unfold find_entry. rewrite each_entries. induction (entries t) as [|e l IH]; [reflexivity|]. cbn [map find].
  change (e_key (regen f e)) with (e_key e). change (e_val (regen f e)) with (e_val e). destruct (str_eqb (e_key e) k && str_eqb (e_val e) v); [reflexivity|exact IH].
Qed.

(** ** What processing a message's pairs does, in closed form *)

Definition touched (gen : N) (ps : list (str * str)) (e : entry) : option N :=
  if grouped e && has ps e then Some gen else e_gen e.
Definition toggl_of (t : table) (p : str * str) : list Z :=
  match find_entry t (fst p) (snd p) with Some e => if grouped e then [] else [e_idx e] | None => [] end.
Definition huff_of (L : library) (k : str) : bool := match encoder L k with Some _ => false | None => true end.
Definition clone_of (L : library) (t : table) (p : str * str) : list (Z * str * bool) :=
  match find_entry t (fst p) (snd p) with
  | Some _ => []
  | None => match key_index (b_keys t) (fst p) with Some n => [(n, snd p, huff_of L (fst p))] | None => [] end
  end.
Definition kvsto_of (L : library) (t : table) (p : str * str) : list (str * str * bool) :=
  match find_entry t (fst p) (snd p) with
  | Some _ => []
  | None => match key_index (b_keys t) (fst p) with Some _ => [] | None => [(fst p, snd p, huff_of L (fst p))] end
  end.

Lemma regen_set_gen f g e : regen f (set_gen g e) = set_gen (f (set_gen g e)) e.
Proof. reflexivity. Qed.
Lemma process_one L gen t i p done : wf t ->
  process_piece L gen (each (regen (touched gen done)) t, i) p =
  (each (regen (touched gen (done ++ [p]))) t,
   mk_instrs (n_toggl i ++ toggl_of t p) (n_clone i ++ clone_of L t p) (n_kvsto i ++ kvsto_of L t p)).
Proof.
  intros W. destruct p as [k v]. unfold process_piece, process_kv, toggl_of, clone_of, kvsto_of, huff_of. cbn [fst snd]. rewrite find_regen.
  assert (Hadd : forall e, In e (entries t) -> pair_of e <> (k, v) -> touched gen (done ++ [(k, v)]) e = touched gen done e).
  { intros e _ Hn. unfold touched, has. rewrite existsb_app. cbn [existsb]. rewrite orb_false_r.
    destruct (pair_eqb (pair_of e) (k, v)) eqn:E; [apply pair_eqb_eq in E; contradiction|]. now rewrite orb_false_r. }
  destruct (find_entry t k v) as [e|] eqn:Ef; cbn [option_map].
  - destruct (find_entry_some _ _ _ _ Ef) as [Hi Ee].
    assert (Eg : e_gen (regen (touched gen done) e) = touched gen done e) by reflexivity. rewrite Eg.
    destruct (grouped e) eqn:Gr.
    + assert (exists g, touched gen done e = Some g) as [g ->].
      { unfold touched. rewrite Gr. cbn [andb]. unfold grouped in Gr. destruct (has done e); [eauto|]. destruct (e_gen e); [eauto|discriminate]. }
      rewrite !app_nil_r. f_equal; [|now destruct i]. rewrite each_each. apply each_ext. intros x Hx.
      change (e_idx (regen (touched gen done) e)) with (e_idx e). change (e_idx (regen (touched gen done) x)) with (e_idx x).
      destruct (Z.eqb_spec (e_idx x) (e_idx e)) as [Ei|Ei].
      * assert (x = e) by exact (NoDup_map_inj e_idx _ _ _ (wf_idx t W) Hx Hi Ei). subst x. unfold regen at 2. unfold touched. rewrite Gr. cbn [andb].
        replace (has (done ++ [(k, v)]) e) with true; [reflexivity|]. symmetry. apply has_in. rewrite Ee, in_app_iff. right. now left.
      * unfold regen. rewrite Hadd; [reflexivity|exact Hx|]. intros C. apply Ei. f_equal.
        apply (NoDup_map_inj pair_of _ _ _ (wf_pair t W) Hx Hi). congruence.
    + assert (touched gen done e = None) as ->.
      { unfold touched. rewrite Gr. cbn [andb]. unfold grouped in Gr. destruct (e_gen e); [discriminate|reflexivity]. }
      rewrite !app_nil_r. f_equal. apply each_ext. intros x Hx. unfold regen. f_equal. unfold touched.
      destruct (grouped x) eqn:Gx; [|reflexivity]. cbn [andb]. unfold has. rewrite existsb_app. cbn [existsb]. rewrite orb_false_r.
      destruct (pair_eqb (pair_of x) (k, v)) eqn:Ex; [|now rewrite orb_false_r]. apply pair_eqb_eq in Ex.
      assert (x = e) by (apply (NoDup_map_inj pair_of _ _ _ (wf_pair t W) Hx Hi); congruence). congruence.
  - assert (Et : each (regen (touched gen done)) t = each (regen (touched gen (done ++ [(k, v)]))) t).
    { apply each_ext. intros x Hx. unfold regen. rewrite Hadd; [reflexivity|exact Hx|]. intros C. apply (proj1 (find_entry_none _ _ _) Ef).
      rewrite <- C. now apply in_map. }
    cbn [each b_keys]. destruct (key_index (b_keys t) k); rewrite !app_nil_r; f_equal; exact Et.
Qed.
Lemma process_all L gen t ps : wf t -> forall done i,
  fold_left (process_piece L gen) ps (each (regen (touched gen done)) t, i) =
  (each (regen (touched gen (done ++ ps))) t,
   mk_instrs (n_toggl i ++ flat_map (toggl_of t) ps) (n_clone i ++ flat_map (clone_of L t) ps) (n_kvsto i ++ flat_map (kvsto_of L t) ps)).
Proof.
  intros W. induction ps as [|p ps IH]; intros done i.
  - cbn [fold_left flat_map]. rewrite !app_nil_r. now destruct i.
  - cbn [fold_left flat_map]. rewrite process_one by exact W. rewrite IH. cbn [n_toggl n_clone n_kvsto]. rewrite <- !app_assoc. reflexivity.
Qed.
Lemma process_closed L gen t ps : wf t -> fold_left (process_piece L gen) ps (t, mk_instrs [] [] []) =
  (each (regen (touched gen ps)) t, mk_instrs (flat_map (toggl_of t) ps) (flat_map (clone_of L t) ps) (flat_map (kvsto_of L t) ps)).
Proof.
  intros W. assert (E : each (regen (touched gen [])) t = t).
  { rewrite (each_ext _ (fun e => e)); [apply each_id|]. intros [i k v g] _. unfold regen, touched, set_gen. cbn. now rewrite andb_false_r. }
  rewrite <- E at 1. rewrite process_all by exact W. reflexivity.
Qed.

(** ** Toggling *)

Lemma toggle_each_ok gen t : forall is, NoDup is -> (forall i, In i is -> In i (map e_idx (entries t))) ->
  toggle_each gen t is = Ok (each (regen (fun e => if existsb (Z.eqb (e_idx e)) is then (if grouped e then None else Some gen) else e_gen e)) t).
Proof.
  intros is. revert t. induction is as [|i is IH]; intros t Hn Hin.
  - cbn [toggle_each existsb]. rewrite (each_ext _ (fun e => e)); [now rewrite each_id|]. intros [a k v g] _. reflexivity.
  - cbn [toggle_each]. unfold toggle at 1.
    replace (existsb (fun e => e_idx e =? i) (entries t)) with true.
    2:{ symmetry. apply existsb_exists. destruct (proj1 (in_map_iff _ _ _) (Hin i (or_introl eq_refl))) as (e & Ee & Hi). exists e. split; [exact Hi|].
        now apply Z.eqb_eq. }
    cbn [bind]. inversion Hn as [|? ? Hni Hn']; subst. rewrite IH; [|exact Hn'|].
    + f_equal. rewrite each_each. apply each_ext. intros e He. cbn [existsb]. destruct (Z.eqb_spec (e_idx e) i) as [Ei|Ei].
      * unfold regen, set_gen. cbn [e_idx e_key e_val e_gen]. replace (existsb (Z.eqb (e_idx e)) is) with false.
        2:{ symmetry. apply not_true_iff_false. intros C. apply existsb_exists in C. destruct C as (x & Hx & E). apply Z.eqb_eq in E. apply Hni. congruence. }
        rewrite (proj2 (Z.eqb_eq _ _) Ei). cbn [orb]. f_equal. unfold grouped. destruct (e_gen e); reflexivity.
      * unfold regen at 2. rewrite (proj2 (Z.eqb_neq _ _) Ei). cbn [orb]. destruct e as [a k v g]. reflexivity.
    + intros j Hj. rewrite each_entries, map_map. rewrite (map_ext _ e_idx); [apply Hin; now right|]. intros [a k v g]. cbn. destruct (a =? i); reflexivity.
Qed.

(** The indices toggled by a message of different pairs are different. *)
Lemma existsb_z i l : existsb (Z.eqb i) l = true <-> In i l.
Proof. rewrite existsb_exists. split; [intros (x & Hx & E); apply Z.eqb_eq in E; now subst|intros H; exists i; split; [exact H|apply Z.eqb_refl]]. Qed.
Lemma toggl_of_in t p i : In i (toggl_of t p) <-> exists e, In e (entries t) /\ find_entry t (fst p) (snd p) = Some e /\ pair_of e = p /\ grouped e = false /\ e_idx e = i.
Proof.
  unfold toggl_of. destruct (find_entry t (fst p) (snd p)) as [e|] eqn:E.
  - pose proof (find_entry_some _ _ _ _ E) as [Hi Ep]. rewrite <- surjective_pairing in Ep. destruct (grouped e) eqn:G; cbn [In].
    + split; [tauto|]. intros (e' & _ & E' & _ & G' & _). congruence.
    + split; [intros [<-|[]]; exists e; repeat split; auto|]. intros (e' & _ & E' & _ & _ & <-). left. congruence.
  - split; [intros []|]. intros (e' & _ & E' & _). discriminate.
Qed.
Lemma toggl_in t ps i : wf t -> In i (flat_map (toggl_of t) ps) <-> exists e, In e (entries t) /\ In (pair_of e) ps /\ grouped e = false /\ e_idx e = i.
Proof.
  intros W. rewrite in_flat_map. split.
  - intros (p & Hp & H). apply toggl_of_in in H. destruct H as (e & Hi & _ & <- & G & E). exists e. auto.
  - intros (e & Hi & Hp & G & E). exists (pair_of e). split; [exact Hp|]. apply toggl_of_in. exists e. split; [exact Hi|]. split; [apply find_entry_in; assumption|auto].
Qed.
Lemma NoDup_flat_map {A B} (f : A -> list B) l : NoDup l -> (forall x, In x l -> NoDup (f x)) ->
  (forall x y b, In x l -> In y l -> In b (f x) -> In b (f y) -> x = y) -> NoDup (flat_map f l).
Proof.
  induction l as [|a l IH]; intros Hn Hf Hd; [constructor|]. cbn [flat_map]. inversion Hn; subst. apply NoDup_app_i.
  - apply Hf. now left.
  - apply IH; [assumption|intros; apply Hf; now right|intros x y b Hx Hy; apply Hd; now right].
  - intros b Hb C. apply in_flat_map in C. destruct C as (y & Hy & Hby). assert (a = y) by (eapply Hd; [now left|now right|exact Hb|exact Hby]). now subst.
Qed.

Definition ord_ok (ord : list Z -> list Z) : Prop := forall l, Permutation (ord l) l.
(** No entry of the group has the current generation. *)
Definition stale (gen : N) (t : table) : Prop := Forall (fun e => e_gen e <> Some gen) (entries t).

Lemma NoDup_map_filter {A B} (f : A -> B) (p : A -> bool) l : NoDup (map f l) -> NoDup (map f (filter p l)).
Proof.
  induction l as [|a l IH]; [constructor|]. cbn [map filter]. intros H. inversion H as [|? ? Hn Hd]; subst. destruct (p a); [|now apply IH].
  cbn [map]. constructor; [|now apply IH]. intros C. apply Hn. apply in_map_iff in C. destruct C as (x & <- & Hx). apply filter_In in Hx. apply in_map. tauto.
Qed.
Lemma turn_offs_in ord gen ps t i : ord_ok ord -> stale gen t ->
  In i (turn_offs ord gen (each (regen (touched gen ps)) t)) <-> exists e, In e (entries t) /\ grouped e = true /\ has ps e = false /\ e_idx e = i.
Proof.
  intros Ho Hs. unfold turn_offs. rewrite each_entries. split.
  - intros H. apply (Permutation_in _ (Ho _)) in H. apply in_map_iff in H. destruct H as (x & Ex & Hx). apply filter_In in Hx. destruct Hx as [Hx Hg].
    apply in_map_iff in Hx. destruct Hx as (e & <- & He). exists e. unfold regen, set_gen in Ex, Hg. cbn [e_idx e_gen] in *. unfold touched in Hg.
    split; [exact He|]. unfold grouped in *. destruct (e_gen e) as [g|]; cbn [andb] in Hg; [|discriminate]. split; [reflexivity|]. split; [|exact Ex].
    destruct (has ps e); [|reflexivity]. rewrite N.eqb_refl in Hg. discriminate.
  - intros (e & He & Hg & Hp & <-). apply (Permutation_in _ (Permutation_sym (Ho _))). change (e_idx e) with (e_idx (regen (touched gen ps) e)). apply in_map.
    apply filter_In. split; [now apply in_map|]. unfold regen, set_gen. cbn [e_gen]. unfold touched. rewrite Hg, Hp. cbn [andb]. unfold grouped in Hg.
    unfold stale in Hs. rewrite Forall_forall in Hs. specialize (Hs e He). destruct (e_gen e) as [g|]; [|discriminate].
    apply negb_true_iff, N.eqb_neq. congruence.
Qed.
Lemma turn_offs_nodup ord gen t : ord_ok ord -> NoDup (map e_idx (entries t)) -> NoDup (turn_offs ord gen t).
Proof. intros Ho H. unfold turn_offs. eapply Permutation_NoDup; [apply Permutation_sym, Ho|]. now apply NoDup_map_filter. Qed.

Definition in_group (gen : N) (ps : list (str * str)) (e : entry) : option N := if has ps e then Some gen else None.

Lemma toggled_ok ord gen t ps : wf t -> stale gen t -> ord_ok ord -> NoDup ps ->
  let t1 := each (regen (touched gen ps)) t in
  toggle_each gen t1 (flat_map (toggl_of t) ps ++ turn_offs ord gen t1) = Ok (each (regen (in_group gen ps)) t).
Proof.
  intros W Hs Ho Hn t1. assert (W1 : wf t1) by now apply regen_wf.
  assert (E1 : map e_idx (entries t1) = map e_idx (entries t)) by (unfold t1; rewrite each_entries, map_map; reflexivity).
  rewrite toggle_each_ok.
  - f_equal. unfold t1 at 2. rewrite each_each. apply each_ext. intros e He. unfold regen, set_gen. cbn [e_idx e_key e_val e_gen]. f_equal.
    set (B := existsb _ _). assert (HB : B = true <-> if grouped e then has ps e = false else has ps e = true).
    { unfold B. rewrite existsb_z, in_app_iff, toggl_in by exact W. unfold t1. rewrite turn_offs_in by assumption. split.
      - intros [(x & Hx & Hp & Hg & Ei)|(x & Hx & Hg & Hp & Ei)]; assert (x = e) by exact (NoDup_map_inj e_idx _ _ _ (wf_idx t W) Hx He Ei); subst x; rewrite Hg.
        + now apply has_in.
        + exact Hp.
      - destruct (grouped e) eqn:G; intros H; [right|left]; exists e; repeat split; auto. now apply has_in. }
    clearbody B. unfold grouped at 1. cbn [e_gen]. unfold in_group. unfold touched, grouped in *. destruct (e_gen e) as [g|]; cbn [andb].
    + destruct (has ps e), B; try reflexivity.
      * discriminate (proj1 HB eq_refl).
      * discriminate (proj2 HB eq_refl).
    + destruct (has ps e), B; try reflexivity.
      * discriminate (proj2 HB eq_refl).
      * discriminate (proj1 HB eq_refl).
  - apply NoDup_app_i.
    + apply NoDup_flat_map; [exact Hn| |].
      * intros p _. unfold toggl_of. destruct (find_entry t (fst p) (snd p)) as [e|]; [destruct (grouped e)|]; repeat constructor. intros [].
      * intros p q i _ _ Hp Hq. apply toggl_of_in in Hp, Hq. destruct Hp as (e & He & _ & <- & _ & Ei), Hq as (e' & He' & _ & <- & _ & Ei').
        f_equal. apply (NoDup_map_inj e_idx _ _ _ (wf_idx t W) He He'). congruence.
    + apply turn_offs_nodup; [exact Ho|]. rewrite E1. apply W.
    + intros i Hi Ht. apply toggl_in in Hi; [|exact W]. apply turn_offs_in in Ht; [|exact Ho|exact Hs].
      destruct Hi as (e & He & _ & G & Ei), Ht as (e' & He' & G' & _ & Ei'). assert (e = e') by (apply (NoDup_map_inj e_idx _ _ _ (wf_idx t W) He He'); congruence). congruence.
  - intros i Hi. rewrite E1. apply in_app_iff in Hi. destruct Hi as [Hi|Hi].
    + apply toggl_in in Hi; [|exact W]. destruct Hi as (e & He & _ & _ & <-). now apply in_map.
    + apply turn_offs_in in Hi; [|exact Ho|exact Hs]. destruct Hi as (e & He & _ & _ & <-). now apply in_map.
Qed.

(** ** Inserting *)

Fixpoint insert_all (refs : list str) (gen : N) (t : table) (ps : list (str * str)) : res table :=
  match ps with [] => Ok t | (k, v) :: r => let* t := insert_val refs gen t k v in insert_all refs gen t r end.

Lemma key_index_in l k n : key_index l k = Some n -> In (k, n) l.
Proof. induction l as [|[k' i] l IH]; [discriminate|]. cbn [key_index]. destruct (str_eqb_spec k' k) as [->|]; intros E; [left; congruence|right; auto]. Qed.
Lemma key_index_none l k : key_index l k = None <-> ~ In k (map fst l).
Proof.
  induction l as [|[k' i] l IH]; cbn [key_index map fst In]; [tauto|]. destruct (str_eqb_spec k' k) as [->|Hn].
  - split; [discriminate|]. intros H. exfalso. apply H. now left.
  - rewrite IH. split; [intros H [C|C]; congruence|intros H C; apply H; now right].
Qed.
Lemma key_index_app l m k : key_index (l ++ m) k = match key_index l k with Some n => Some n | None => key_index m k end.
Proof. induction l as [|[k' i] l IH]; [reflexivity|]. cbn [app key_index]. destruct (str_eqb k' k); [reflexivity|exact IH]. Qed.
Lemma key_at_in l k n : NoDup (map snd l) -> In (k, n) l -> forall m, key_at (l ++ m) n = Some k.
Proof.
  induction l as [|[k' i] l IH]; [contradiction|]. cbn [map snd app key_at]. intros Hn [E|H] m; inversion Hn as [|? ? Hni Hnl]; subst.
  - assert (i = n) by congruence. subst i. rewrite Z.eqb_refl. congruence.
  - destruct (Z.eqb_spec i n) as [->|]; [|now apply IH]. exfalso. apply Hni. apply (in_map snd) in H. exact H.
Qed.

(** Making room removes a part of the front of the deque. *)
Record shrunk (t t' : table) : Prop := mk_shrunk {
  sh_keys : b_keys t' = b_keys t; sh_nkey : b_nkey t' = b_nkey t; sh_nlru : b_nlru t' = b_nlru t; sh_def : b_def t' = b_def t; sh_new : b_new t' = b_new t;
  sh_old : exists popped, b_old t = popped ++ b_old t' /\ b_num t' = b_num t - Z.of_nat (length popped) }.
Lemma shrunk_refl t : shrunk t t.
Proof. constructor; try reflexivity. exists []. split; [reflexivity|cbn; lia]. Qed.
Lemma pop_one_ok refs t t' : pop_one refs t = Ok t' -> shrunk t t' /\
  ((b_old t = [] /\ t' = t) \/ exists e, b_old t = e :: b_old t' /\ b_num t' = b_num t - 1 /\ existsb grouped (entries t') = true).
Proof.
  unfold pop_one. destruct (b_old t) as [|e r] eqn:Eo.
  - intros E. assert (t' = t) by congruence. subst. split; [apply shrunk_refl|now left].
  - set (t1 := mk_table _ _ _ _ _ _ r _). destruct (existsb grouped (entries t1)) eqn:G; [|discriminate]. destruct (_ || _); intros E.
    + assert (t' = t1) by congruence. subst t'. split; [constructor; try reflexivity; exists [e]; split; [exact Eo|reflexivity]|]. right. exists e. repeat split; assumption.
    + match type of E with Ok ?x = _ => assert (t' = x) by congruence end. subst t'. split; [constructor; try reflexivity; exists [e]; split; [exact Eo|reflexivity]|].
      right. exists e. repeat split; try assumption.
Qed.
Lemma pop_one_err refs t e : pop_one refs t = Err e -> e = TypeError.
Proof. unfold pop_one. destruct (b_old t); [discriminate|]. destruct (existsb grouped _); [destruct (_ || _); discriminate|congruence]. Qed.
Lemma make_space_ok refs t s a t' : make_space refs t s a = Ok t' -> shrunk t t'.
Proof.
  unfold make_space. destruct (max_vals <? b_num t + a); [intros E; apply pop_one_ok in E; tauto|]. destruct (max_state_size <? b_size t + s); [discriminate|].
  intros E. assert (t' = t) by congruence. subst. apply shrunk_refl.
Qed.
Lemma make_space_err refs t s a e : make_space refs t s a = Err e -> e = TypeError \/ e = NameError.
Proof.
  unfold make_space. destruct (max_vals <? b_num t + a); [intros E; apply pop_one_err in E; tauto|]. destruct (max_state_size <? b_size t + s); [right; congruence|discriminate].
Qed.

Lemma NoDup_drop {A} (a b c : list A) : NoDup (a ++ b ++ c) -> NoDup (a ++ c).
Proof.
  induction b as [|x b IH]; [auto|]. cbn [app]. intros H. apply NoDup_remove_1 in H. auto.
Qed.
Lemma Forall_drop {A} (P : A -> Prop) (a b c : list A) : Forall P (a ++ b ++ c) -> Forall P (a ++ c).
Proof. rewrite !Forall_app. tauto. Qed.
Lemma shrunk_entries t t' : shrunk t t' -> exists popped, entries t = b_def t ++ popped ++ b_old t' ++ b_new t /\ entries t' = b_def t ++ b_old t' ++ b_new t /\
  b_num t' = b_num t - Z.of_nat (length popped).
Proof.
  intros [_ _ _ Hd Hn (p & Ho & Hnum)]. exists p. unfold entries. rewrite Ho, Hd, Hn, <- !app_assoc. auto.
Qed.
Lemma shrunk_wf t t' : wf t -> shrunk t t' -> wf t'.
Proof.
  intros W S. destruct (shrunk_entries _ _ S) as (p & E & E' & Hnum). destruct S as [Hk Hnk Hnl _ _ _]. destruct W as [H1 H2 H3 H4 H5 H6 H7 H8 H9 H10].
  rewrite E in *. constructor; rewrite ?E', ?Hk, ?Hnk, ?Hnl; try assumption.
  - rewrite map_app in *. rewrite map_app in H1. eapply NoDup_drop, H1.
  - eapply Forall_drop, H2.
  - rewrite map_app in *. rewrite map_app in H3. eapply NoDup_drop, H3.
  - eapply Forall_drop, H4.
  - rewrite Hnum, H9, !app_length. lia.
Qed.
Lemma shrunk_incl t t' : shrunk t t' -> incl (entries t') (entries t).
Proof. intros S. destruct (shrunk_entries _ _ S) as (p & -> & -> & _). intros x. rewrite !in_app_iff. tauto. Qed.

Lemma add_key_ok refs t k t' : wf t -> add_key refs t k = Ok t' -> wf t' /\ incl (entries t') (entries t) /\ b_def t' = b_def t /\ b_new t' = b_new t /\
  b_nlru t' = b_nlru t /\ (exists more, b_keys t' = b_keys t ++ more) /\ In k (map fst (b_keys t')) /\
  exists popped, b_old t = popped ++ b_old t' /\ b_num t' = b_num t - Z.of_nat (length popped).
Proof.
  intros W. unfold add_key. destruct (key_index (b_keys t) k) as [n|] eqn:Ek.
  - intros E. assert (t' = t) by congruence. subst. split; [exact W|]. split; [apply incl_refl|]. split; [reflexivity|]. split; [reflexivity|]. split; [reflexivity|].
    split; [exists []; now rewrite app_nil_r|]. split.
    + apply key_index_in in Ek. apply (in_map fst) in Ek. exact Ek.
    + exists []. split; [reflexivity|cbn; lia].
  - destruct (make_space refs t (slen k) 0) as [t1|] eqn:Em; [|discriminate]. cbn [bind]. intros E. match type of E with Ok ?x = _ => assert (t' = x) by congruence end. subst t'.
    apply make_space_ok in Em. pose proof (shrunk_wf _ _ W Em) as [H1 H2 H3 H4 H5 H6 H7 H8 H9 H10]. pose proof (shrunk_incl _ _ Em) as Hi. destruct Em as [Hk Hnk Hnl Hd Hn Ho].
    assert (Hfresh : ~ In k (map fst (b_keys t1))) by (rewrite Hk; now apply key_index_none).
    split; [|split; [exact Hi|]; split; [exact Hd|]; split; [exact Hn|]; split; [exact Hnl|]; split; [|split; [|exact Ho]]].
    1: constructor; cbn [b_keys b_nkey b_nlru b_num b_def b_old b_new]; try assumption.
    + change (entries _) with (entries t1). eapply Forall_impl, H4. intros e He. cbn beta. rewrite map_app, in_app_iff. now left.
    + rewrite map_app. apply NoDup_snoc; assumption.
    + rewrite map_app. apply NoDup_snoc; [assumption|]. cbn [snd]. intros C. apply in_map_iff in C. destruct C as ([k' i'] & Ei & Hin). rewrite Forall_forall in H7. specialize (H7 _ Hin). cbn [snd] in *. lia.
    + apply Forall_app. split; [|repeat constructor; cbn [snd]; lia]. eapply Forall_impl, H7. intros p Hp. cbn beta in *. lia.
    + rewrite app_length. cbn [length]. lia.
    + exists [(k, b_nkey t1 + 1)]. now rewrite Hk.
    + cbn [b_keys]. rewrite map_app, in_app_iff. right. now left.
Qed.
Lemma add_key_err refs t k e : add_key refs t k = Err e -> e = TypeError \/ e = NameError.
Proof.
  unfold add_key. destruct (key_index (b_keys t) k); [discriminate|]. destruct (make_space refs t (slen k) 0) eqn:E; [discriminate|]. cbn [bind]. intros E'.
  apply make_space_err in E. assert (e = e0) by congruence. now subst.
Qed.

(** Inserting a pair adds it at the end; entries may be lost at the front. *)
Record inserted (gen : N) (ps : list (str * str)) (t t' : table) : Prop := mk_inserted {
  in_wf : wf t';
  in_def : b_def t' = b_def t;
  in_nlru : b_nlru t' = b_nlru t + Z.of_nat (length ps);
  in_keys : exists more, b_keys t' = b_keys t ++ more;
  in_old : exists popped, b_old t = popped ++ b_old t' /\ b_num t' = b_num t + Z.of_nat (length ps) - Z.of_nat (length popped);
  in_new : exists es, b_new t' = b_new t ++ es /\ map pair_of es = ps /\ Forall (fun e => e_gen e = Some gen /\ b_nlru t < e_idx e) es }.
Lemma insert_val_ok refs gen t k v t' : wf t -> insert_val refs gen t k v = Ok t' -> inserted gen [(k, v)] t t'.
Proof.
  intros W. unfold insert_val. destruct (add_key refs t k) as [t1|] eqn:E1; [|discriminate]. cbn [bind].
  destruct (add_key_ok _ _ _ _ W E1) as (W1 & I1 & D1 & N1 & L1 & K1 & Hk & O1). destruct (find_entry t1 k v) eqn:Ef; [discriminate|].
  destruct (make_space (k :: refs) t1 (slen v) 1) as [t2|] eqn:E2; [|discriminate]. cbn [bind]. intros E. match type of E with Ok ?x = _ => assert (t' = x) by congruence end. subst t'.
  apply make_space_ok in E2. pose proof (shrunk_wf _ _ W1 E2) as [H1 H2 H3 H4 H5 H6 H7 H8 H9 H10]. pose proof (shrunk_incl _ _ E2) as I2.
  destruct E2 as [Hks Hnk Hnl Hd Hn (p2 & Ho & Hnum)]. destruct O1 as (p1 & Ho1 & Hnum1). set (n := b_nlru t2 + 1).
  assert (En : forall l, entries (mk_table (b_keys t2) (b_nkey t2) n (b_size t2) (b_num t2 + 1) (b_def t2) (b_old t2) (b_new t2 ++ l)) = entries t2 ++ l).
  { intros l. unfold entries. cbn [b_def b_old b_new]. now rewrite <- !app_assoc. }
  constructor; cbn [b_def b_nlru b_keys b_old b_num b_new].
  - constructor; rewrite ?En; cbn [b_def b_nlru b_keys b_old b_num b_new b_nkey]; try assumption.
    + rewrite map_app. apply NoDup_snoc; [assumption|]. cbn [e_idx]. intros C. apply in_map_iff in C. destruct C as (e & Ei & He). rewrite Forall_forall in H2. specialize (H2 e He). cbn beta in H2. lia.
    + apply Forall_app. split; [|repeat constructor; cbn [e_idx]; lia]. eapply Forall_impl, H2. intros e He. cbn beta in *. lia.
    + rewrite map_app. apply NoDup_snoc; [assumption|]. unfold pair_of. cbn [e_key e_val]. intros C. apply (proj1 (find_entry_none _ _ _) Ef).
      apply in_map_iff in C. destruct C as (e & Ee & He). rewrite <- Ee. apply (in_map pair_of). now apply I2.
    + apply Forall_app. split; [assumption|]. repeat constructor. cbn [e_key]. now rewrite Hks.
    + rewrite app_length. cbn [length]. lia.
    + lia.
  - now rewrite Hd.
  - cbn [length]. unfold n. rewrite Hnl, L1. lia.
  - destruct K1 as (m & K1). exists m. now rewrite Hks.
  - exists (p1 ++ p2). rewrite <- app_assoc, <- Ho. split; [exact Ho1|]. cbn [length]. rewrite app_length. lia.
  - exists [mk_entry n k v (Some gen)]. rewrite Hn, N1. split; [reflexivity|]. split; [reflexivity|]. repeat constructor. cbn [e_idx]. unfold n. rewrite Hnl, L1. lia.
Qed.
Lemma insert_val_err refs gen t k v e : insert_val refs gen t k v = Err e -> e = TypeError \/ e = NameError \/ e = StandardError.
Proof.
  unfold insert_val. destruct (add_key refs t k) as [t1|] eqn:E1; cbn [bind].
  - destruct (find_entry t1 k v); [intros; right; right; congruence|]. destruct (make_space (k :: refs) t1 (slen v) 1) as [t2|] eqn:E2; cbn [bind]; [discriminate|].
    apply make_space_err in E2. intros E. assert (e = e0) by congruence. subst. tauto.
  - apply add_key_err in E1. intros E. assert (e = e0) by congruence. subst. tauto.
Qed.
Lemma inserted_nil gen t : wf t -> inserted gen [] t t.
Proof.
  intros W. constructor; try assumption; try reflexivity; [cbn [length]; lia|exists []; now rewrite app_nil_r|exists []; split; [reflexivity|cbn [length]; lia]|].
  exists []. rewrite app_nil_r. repeat constructor.
Qed.
Lemma inserted_trans gen a b t t1 t2 : inserted gen a t t1 -> inserted gen b t1 t2 -> inserted gen (a ++ b) t t2.
Proof.
  intros [W1 D1 L1 (k1 & K1) (p1 & O1 & M1) (e1 & N1 & P1 & F1)] [W2 D2 L2 (k2 & K2) (p2 & O2 & M2) (e2 & N2 & P2 & F2)]. constructor.
  - exact W2.
  - now rewrite D2.
  - rewrite app_length. lia.
  - exists (k1 ++ k2). now rewrite K2, K1, <- app_assoc.
  - exists (p1 ++ p2). rewrite O1, O2, <- app_assoc. split; [reflexivity|]. rewrite !app_length. lia.
  - exists (e1 ++ e2). rewrite N2, N1, <- app_assoc. split; [reflexivity|]. rewrite map_app, P1, P2. split; [reflexivity|]. apply Forall_app. split; [exact F1|].
    eapply Forall_impl, F2. intros e [He Hi]. split; [exact He|]. lia.
Qed.
Lemma insert_all_ok refs gen ps : forall t t', wf t -> insert_all refs gen t ps = Ok t' -> inserted gen ps t t'.
Proof.
  induction ps as [|[k v] ps IH]; intros t t' W E.
  - assert (t' = t) by (cbn in E; congruence). subst. now apply inserted_nil.
  - cbn [insert_all] in E. destruct (insert_val refs gen t k v) as [t1|] eqn:E1; [|discriminate]. cbn [bind] in E. pose proof (insert_val_ok _ _ _ _ _ _ W E1) as I1.
    change ((k, v) :: ps) with ([(k, v)] ++ ps). eapply inserted_trans; [exact I1|]. apply IH; [apply I1|exact E].
Qed.
Lemma insert_all_err refs gen ps e : forall t, insert_all refs gen t ps = Err e -> e = TypeError \/ e = NameError \/ e = StandardError.
Proof.
  induction ps as [|[k v] ps IH]; intros t E; [discriminate|]. cbn [insert_all] in E. destruct (insert_val refs gen t k v) as [t1|] eqn:E1; cbn [bind] in E; [eauto|].
  apply insert_val_err in E1. assert (e = e0) by congruence. now subst.
Qed.
Lemma insert_all_app refs gen a b : forall t, insert_all refs gen t (a ++ b) = let* t := insert_all refs gen t a in insert_all refs gen t b.
Proof.
  induction a as [|[k v] a IH]; intros t; [reflexivity|]. cbn [app insert_all]. rewrite bind_assoc. destruct (insert_val refs gen t k v); [apply IH|reflexivity].
Qed.
