(** * delta_bohe: what the octets of a message of text headers determine. *)
From Coq Require Import String List NArith ZArith Bool Arith Lia ZifyN ZifyNat Permutation.
From Verif Require Import PyBase PyStr NBits Bits BB_Model BB_Spec BB_Proofs BB_Read D2Huff_Model D2Huff_Proofs D2Wire_Proofs D2Wire_Frame.
From Verif Require Import D1Huff_Model D1Huff_Proofs Prop_D1Huff D1Wire_Model D1Wire_Proofs D1Wire_Frame Prop_D1Wire Small_Model Bohe_Model DB_Model DB_Proofs DB_Ops DB_Session DB_Wire.
Import ListNotations.
Open Scope Z_scope.
Open Scope py_scope.

(** ** The names held back play a part only as a set *)

Definition same_set (r r' : list str) : Prop := forall k, In k r <-> In k r'.
Lemma mem_str_in k r : mem_str k r = true <-> In k r.
Proof.
  unfold mem_str. rewrite existsb_exists. split.
  - intros (x & Hx & E). apply str_eqb_eq in E. now subst.
  - intros H. exists k. split; [exact H|]. now apply str_eqb_eq.
Qed.
Lemma mem_str_same k r r' : same_set r r' -> mem_str k r = mem_str k r'.
Proof.
  intros H. apply eq_true_iff_eq. rewrite !mem_str_in. apply H.
Qed.
Lemma same_cons k r r' : same_set r r' -> same_set (k :: r) (k :: r').
Proof. intros H x. cbn [In]. rewrite (H x). tauto. Qed.
Lemma make_space_same r r' t s a : same_set r r' -> make_space r t s a = make_space r' t s a.
Proof.
  intros H. unfold make_space, pop_one. destruct (max_vals <? b_num t + a); [|reflexivity]. destruct (b_old t) as [|e o]; [reflexivity|]. now rewrite (mem_str_same (e_key e) r r' H).
Qed.
Lemma insert_all_same r r' gen : same_set r r' -> forall ps t, insert_all r gen t ps = insert_all r' gen t ps.
Proof.
  intros H. induction ps as [|[k v] ps IH]; intros t; [reflexivity|]. cbn [insert_all].
  assert (E : insert_val r gen t k v = insert_val r' gen t k v).
  { unfold insert_val. assert (Ea : add_key r t k = add_key r' t k) by (unfold add_key; destruct (key_index (b_keys t) k); [reflexivity|now rewrite (make_space_same r r')]).
    rewrite Ea. destruct (add_key r' t k) as [t1|]; [|reflexivity]. cbn [bind]. destruct (find_entry t1 k v); [reflexivity|]. now rewrite (make_space_same (k :: r) (k :: r') _ _ _ (same_cons k r r' H)). }
  rewrite E. destruct (insert_val r' gen t k v); [apply IH|reflexivity].
Qed.

(** Every header gives at least one pair. *)
Lemma split_nonempty c s : split_on c s <> [].
Proof. unfold split_on. induction s as [|x s IH]; cbn; [discriminate|]. destruct (x =? c)%N; [discriminate|]. destruct (_ : list str); [contradiction|discriminate]. Qed.
Lemma insert_s_nonempty x l : insert_s x l <> [].
Proof. destruct l as [|y l]; cbn; [discriminate|]. destruct (str_leb x y); discriminate. Qed.
Lemma values_nonempty k v : values_of k v <> [].
Proof.
  unfold values_of, crumbs, sort_s. destruct (str_eqb k _); [|discriminate]. pose proof (split_nonempty 59 v) as H. destruct (split_on 59 v) as [|x l]; [contradiction|]. cbn [map fold_right]. apply insert_s_nonempty.
Qed.
Lemma map_res_length {A B} (f : A -> res B) l ws : map_res f l = Ok ws -> length ws = length l.
Proof.
  revert ws. induction l as [|a l IH]; intros ws E; cbn [map_res] in E; [assert (ws = []) by congruence; now subst|].
  destruct (f a) as [b|]; [|discriminate]. cbn [bind] in E. destruct (map_res f l) as [r|]; [|discriminate]. cbn [bind] in E. assert (ws = b :: r) by congruence. subst. cbn [length]. now rewrite (IH r).
Qed.
Lemma pieces_names L headers : forall ps, pieces L headers = Ok ps -> same_set (map fst headers) (map fst ps).
Proof.
  induction headers as [|[k v] r IH]; intros ps E; cbn [pieces] in E; [assert (ps = []) by congruence; subst; now intros x|].
  destruct (map_res (bohe_encode L k) (values_of k v)) as [ws|] eqn:Ew; [|discriminate]. cbn [bind] in E. destruct (pieces L r) as [qs|]; [|discriminate]. cbn [bind] in E.
  assert (ps = map (pair k) ws ++ qs) by congruence. subst ps. intros x. cbn [map fst In]. rewrite map_app, in_app_iff, map_map. rewrite <- (IH qs eq_refl x).
  assert (H : In x (map (fun y => fst (k, y)) ws) <-> k = x).
  { rewrite in_map_iff. cbn [fst]. split; [now intros (y & -> & _)|]. intros ->. apply map_res_length in Ew. pose proof (values_nonempty x v). destruct ws as [|w ws]; [destruct (values_of x v); [contradiction|discriminate]|]. exists w. split; [reflexivity|now left]. }
  rewrite H. tauto.
Qed.

(** ** Same instructions, same message *)

Definition same_instrs (i i' : instrs) : Prop := Permutation (n_toggl i) (n_toggl i') /\ n_clone i = n_clone i' /\ n_kvsto i = n_kvsto i'.
Definition unclone (t : table) (c : Z * str * bool) : str * str := (match key_at (b_keys t) (fst (fst c)) with Some k => k | None => [] end, snd (fst c)).
Lemma clones_back L t ps : wf t -> filter (is_clone t) ps = map (unclone t) (flat_map (clone_of L t) ps).
Proof.
  intros W. induction ps as [|[k v] ps IH]; [reflexivity|]. cbn [filter flat_map]. rewrite map_app, <- IH. unfold is_clone at 1, clone_of at 1. cbn [fst snd].
  destruct (find_entry t k v); [reflexivity|]. destruct (key_index (b_keys t) k) as [n|] eqn:E; [|reflexivity]. cbn [map app]. f_equal. unfold unclone. cbn [fst snd].
  apply key_index_in in E. pose proof (key_at_in _ _ _ (wf_kidx t W) E []) as K. rewrite app_nil_r in K. now rewrite K.
Qed.
Lemma kvstos_back L t ps : filter (is_kvsto t) ps = map fst (flat_map (kvsto_of L t) ps).
Proof.
  induction ps as [|[k v] ps IH]; [reflexivity|]. cbn [filter flat_map]. rewrite map_app, <- IH. unfold is_kvsto at 1, kvsto_of at 1. cbn [fst snd].
  destruct (find_entry t k v); [reflexivity|]. destruct (key_index (b_keys t) k) as [n|] eqn:E; reflexivity.
Qed.
Lemma message_from_instrs L ord ord' gen t ps ps' : wf t -> aged gen t -> ord_ok ord -> ord_ok ord' -> NoDup ps -> NoDup ps' ->
  same_instrs (instrs_of L ord gen t ps) (instrs_of L ord' gen t ps') -> news t ps = news t ps' /\ Permutation ps ps'.
Proof.
  intros W Ha Ho Ho' Hnd Hnd' (Ht & Hc & Hk). cbn [instrs_of n_toggl n_clone n_kvsto] in *.
  assert (En : news t ps = news t ps') by (unfold news; now rewrite !(clones_back L t _ W), !(kvstos_back L t), Hc, Hk).
  split; [exact En|].
  assert (Hin : forall e, In e (entries t) -> In (pair_of e) ps <-> In (pair_of e) ps').
  { assert (Tog : forall ord ps e, ord_ok ord -> In e (entries t) -> In (e_idx e) (flat_map (toggl_of t) ps ++ turn_offs ord gen (each (regen (touched gen ps)) t)) <-> (grouped e = false /\ In (pair_of e) ps) \/ (grouped e = true /\ ~ In (pair_of e) ps)).
    { intros o qs e Hoo He. rewrite in_app_iff. rewrite toggl_in by exact W. rewrite turn_offs_in by (try exact Hoo; now apply aged_stale). split.
      - intros [(x & Hx & Hp & G & Ei)|(x & Hx & G & Hp & Ei)].
        + assert (x = e) by (apply (NoDup_map_inj e_idx _ _ _ (wf_idx t W) Hx He Ei)). subst. now left.
        + assert (x = e) by (apply (NoDup_map_inj e_idx _ _ _ (wf_idx t W) Hx He Ei)). subst. right. split; [exact G|]. intros C. apply has_in in C. congruence.
      - intros [[G Hp]|[G Hp]]; [left|right]; exists e; repeat split; auto. destruct (has qs e) eqn:E; [|reflexivity]. apply has_in in E. contradiction. }
    intros e He. pose proof (Tog ord ps e Ho He) as T1. pose proof (Tog ord' ps' e Ho' He) as T2.
    assert (T : In (e_idx e) (flat_map (toggl_of t) ps ++ turn_offs ord gen (each (regen (touched gen ps)) t)) <-> In (e_idx e) (flat_map (toggl_of t) ps' ++ turn_offs ord' gen (each (regen (touched gen ps')) t))).
    { split; intros H; eapply Permutation_in; try exact H; [exact Ht|now symmetry]. }
    rewrite T1, T2 in T. destruct (in_dec pair_dec (pair_of e) ps), (in_dec pair_dec (pair_of e) ps'); destruct (grouped e); intuition discriminate. }
  apply NoDup_Permutation; [exact Hnd|exact Hnd'|]. intros p. destruct (in_dec pair_dec p (map pair_of (entries t))) as [H|H].
  - apply in_map_iff in H. destruct H as (e & <- & He). now apply Hin.
  - split; intros Hp.
    + assert (Hq : In p (news t ps)) by (apply news_in; now split). rewrite En in Hq. now apply news_in in Hq.
    + assert (Hq : In p (news t ps')) by (apply news_in; now split). rewrite <- En in Hq. now apply news_in in Hq.
Qed.

Lemma same_next L ord ord' c m m' ps ps' c1 c1' i i' : codec_ok c -> ord_ok ord -> ord_ok ord' -> pieces L m = Ok ps -> pieces L m' = Ok ps' -> NoDup ps -> NoDup ps' ->
  make_operations L ord c m = Ok (c1, i) -> make_operations L ord' c m' = Ok (c1', i') -> same_instrs i i' -> c1 = c1' /\ Permutation ps ps'.
Proof.
  intros Hc Ho Ho' Ep Ep' Hnd Hnd' E E' Hs. pose proof Hc as (W & Hn & Ha).
  destruct (make_operations_ok L ord c m ps Hc Ho Ep) as (f & _ & H2 & Em). destruct (make_operations_ok L ord' c m' ps' Hc Ho' Ep') as (f' & _ & H2' & Em').
  rewrite E in Em. rewrite E' in Em'. specialize (H2 Hnd). specialize (H2' Hnd').
  destruct (insert_all (refs_of (c_table c) m) _ _ _) as [t2|] eqn:Ei; [|discriminate]. destruct (insert_all (refs_of (c_table c) m') _ _ _) as [t2'|] eqn:Ei'; [|discriminate]. cbn [bind] in Em, Em'.
  assert (Hi : i = instrs_of L ord (c_gen c) (c_table c) ps) by congruence. assert (Hi' : i' = instrs_of L ord' (c_gen c) (c_table c) ps') by congruence. subst i i'.
  destruct (message_from_instrs L ord ord' (c_gen c) (c_table c) ps ps' W Ha Ho Ho' Hnd Hnd' Hs) as [En P]. split; [|exact P].
  assert (Ef : each (regen f) (c_table c) = each (regen f') (c_table c)).
  { apply each_ext. intros e He. unfold regen. rewrite H2, H2' by exact He. unfold in_group. f_equal. replace (has ps' e) with (has ps e); [reflexivity|].
    apply eq_true_iff_eq. rewrite !has_in. split; intros H; eapply Permutation_in; try exact H; [exact P|now symmetry]. }
  assert (Er : same_set (refs_of (c_table c) m) (refs_of (c_table c) m')).
  { intros k. unfold refs_of. rewrite !filter_In. rewrite (pieces_names L m ps Ep k), (pieces_names L m' ps' Ep' k).
    assert (Hk : In k (map fst ps) <-> In k (map fst ps')) by (split; intros H; eapply Permutation_in; try exact H; apply Permutation_map; [exact P|now symmetry]). rewrite Hk. tauto. }
  rewrite (insert_all_same _ _ _ Er), Ef, En in Ei. assert (t2 = t2') by congruence. congruence.
Qed.

(** ** Same octets, same instructions *)

Lemma put_op_inv h ws (G : good h ws) (He : (256 < lenN ws)%N) o b A R b' : (forall i v f, o = WClone i v f -> is_bytes v) -> (forall k v f, o = WKvsto k v f -> is_bytes k /\ is_bytes v) -> rd b A R ->
  put_op h b o = Ok b' -> wop_ok o /\ exists R', rd b' A R'.
Proof.
  intros H1 H2 Hb E. destruct o as [i|i s|i v f|k v f].
  - destruct (put_toggle h (WToggl i) b A R I Hb) as [[Hw (b1 & R1 & E1 & B1)]|[_ [E1|E1]]]; rewrite E in E1; try discriminate. split; [exact Hw|]. exists R1. assert (b' = b1) by congruence. subst. exact B1.
  - destruct (put_toggle h (WTrang i s) b A R I Hb) as [[Hw (b1 & R1 & E1 & B1)]|[_ [E1|E1]]]; rewrite E in E1; try discriminate. split; [exact Hw|]. exists R1. assert (b' = b1) by congruence. subst. exact B1.
  - specialize (H1 i v f eq_refl). destruct (idx_ok_dec i) as [Hi|Hi].
    + assert (Hw : wop_ok (WClone i v f)) by (now split). split; [exact Hw|]. destruct (put_op_ok h ws G He _ b A R Hw Hb) as (b1 & E1 & B1 & _). rewrite E in E1. assert (b' = b1) by congruence. subst. eauto.
    + exfalso. cbn [put_op] in E. destruct (pack_int16_bad i b Hi) as [E1|E1]; rewrite E1 in E; discriminate.
  - specialize (H2 k v f eq_refl). assert (Hw : wop_ok (WKvsto k v f)) by exact H2. split; [exact Hw|]. destruct (put_op_ok h ws G He _ b A R Hw Hb) as (b1 & E1 & B1 & _). rewrite E in E1. assert (b' = b1) by congruence. subst. eauto.
Qed.
Lemma put_clones_inv h ws (G : good h ws) (He : (256 < lenN ws)%N) l : Forall (fun c : Z * str * bool => is_bytes (snd (fst c))) l -> forall b A R b', rd b A R ->
  put_ops h b (map (fun '(n, v, f) => WClone n v f) l) = Ok b' -> Forall (fun c => idx_ok (fst (fst c))) l.
Proof.
  induction 1 as [|[[n v] f] l Hv HF IH]; intros b A R b' Hb E; [constructor|]. cbn [map put_ops] in E. destruct (put_op h b (WClone n v f)) as [b1|] eqn:E1; [|discriminate]. cbn [bind] in E.
  destruct (put_op_inv h ws G He (WClone n v f) b A R b1 ltac:(intros i' v' f' E'; assert (v' = v) by congruence; subst; exact Hv) ltac:(discriminate) Hb E1) as ([Hw _] & R1 & B1). constructor; [exact Hw|]. eapply IH; [exact B1|exact E].
Qed.
(** What was written fits. *)
Lemma put_instrs_fit h ws (G : good h ws) (He : (256 < lenN ws)%N) i pb : Forall (fun c => is_bytes (snd (fst c))) (n_clone i) -> Forall (fun c => is_bytes (fst (fst c)) /\ is_bytes (snd (fst c))) (n_kvsto i) ->
  put_instrs h i = Ok pb -> instrs_ok i.
Proof.
  intros Hc Hk Ep.
  assert (Ht : Forall idx_ok (n_toggl i)).
  { destruct (Forall_dec idx_ok idx_ok_dec (n_toggl i)) as [H|H]; [exact H|]. destruct (put_instrs_refused h i H) as [E'|E']; congruence. }
  constructor; [exact Ht| |exact Hk].
  unfold put_instrs in Ep. destruct (toggle_ranges (n_toggl i)) as [ot otr] eqn:Et. 
  assert (T1 : Forall is_toggle (map WToggl ot)) by (apply Forall_map, Forall_forall; now cbn).
  assert (T2 : Forall is_toggle (map (fun '(s, e) => WTrang e s) otr)) by (apply Forall_map, Forall_forall; now intros [s e]).
  destruct (put_kind_toggles h KToggl _ T1 bb_new [] [] wr_new) as [[_ (b1 & R1 & E1 & B1)]|[_ [E|E]]]; [|rewrite E in Ep; discriminate|rewrite E in Ep; discriminate].
  rewrite E1 in Ep. cbn [bind] in Ep. destruct (put_kind_toggles h KTrang _ T2 b1 [] R1 B1) as [[_ (b2 & R2 & E2 & B2)]|[_ [E|E]]]; [|rewrite E in Ep; discriminate|rewrite E in Ep; discriminate].
  rewrite E2 in Ep. cbn [bind] in Ep. destruct (put_kind h b2 KClone _) as [b3|] eqn:E3; [|discriminate]. clear Ep.
  assert (Hi : Forall (fun c => idx_ok (fst (fst c))) (n_clone i)).
  { unfold put_kind in E3. destruct (n_clone i) as [|c l] eqn:Ec; [constructor|]. rewrite <- Ec in *.
    assert (Em : exists o r, map (fun '(n, v, f) => WClone n v f) (n_clone i) = o :: r) by (rewrite Ec; cbn [map]; eauto). destruct Em as (o & r & Em). rewrite Em in E3. rewrite <- Em in E3.
    destruct (rd_store8 b2 [] R2 (kind_val KClone) B2 (kind_val_lt _)) as (b4 & E4 & B4). rewrite E4 in E3. cbn [bind] in E3.
    destruct (rd_store8 b4 [] _ (N.min 256 (lenN (map (fun '(n, v, f) => WClone n v f) (n_clone i))) - 1)%N B4 ltac:(lia)) as (b5 & E5 & B5). rewrite E5 in E3. cbn [bind] in E3.
    eapply put_clones_inv; [exact G|exact He|exact Hc|exact B5|exact E3]. }
  rewrite Forall_forall in *. intros c Hx. split; [now apply Hi|now apply Hc].
Qed.
Lemma written_ok h ws (G : good h ws) (He : (256 < lenN ws)%N) i out : Forall (fun c => is_bytes (snd (fst c))) (n_clone i) -> Forall (fun c => is_bytes (fst (fst c)) /\ is_bytes (snd (fst c))) (n_kvsto i) ->
  real_ops h i = Ok out -> instrs_ok i.
Proof.
  intros Hc Hk E. unfold real_ops, serialize in E. destruct (put_instrs h i) as [pb|] eqn:Ep; [|discriminate]. exact (put_instrs_fit h ws G He i pb Hc Hk Ep).
Qed.

Lemma fm_nil {A C} (p : op1 -> list C) (f : A -> op1) l : (forall x, p (f x) = []) -> flat_map p (map f l) = [].
Proof. intros H. induction l as [|a l IH]; [reflexivity|]. cbn [map flat_map]. now rewrite H, IH. Qed.
Lemma fm_one {C} (p : op1 -> list C) (f : C -> op1) l : (forall x, p (f x) = [x]) -> flat_map p (map f l) = l.
Proof. intros H. induction l as [|a l IH]; [reflexivity|]. cbn [map flat_map]. rewrite H, IH. reflexivity. Qed.
Lemma listing_inj i i' s r s' r' : i_eref i = [] -> i_eref i' = [] -> listing i s r = listing i' s' r' -> s = s' /\ r = r' /\ i_clone i = i_clone i' /\ i_kvsto i = i_kvsto i'.
Proof.
  intros He He' E. unfold listing in E. rewrite He, He' in E. cbn [map] in E. rewrite !app_nil_r in E.
  set (pt := fun o => match o with Toggl x => [x] | _ => [] end). set (pr := fun o => match o with Trang e x => [(x, e)] | _ => [] end).
  set (pc := fun o => match o with Clone n v => [(n, v)] | _ => [] end). set (pk := fun o => match o with Kvsto n v => [(n, v)] | _ => [] end).
  assert (F : forall C (p : op1 -> list C) j a b,
    flat_map p (map Toggl a ++ map (fun '(s, e) => Trang e s) b ++ map (fun '(x, v) => Clone x v) (i_clone j) ++ map (fun '(k, v) => Kvsto k v) (i_kvsto j)) =
    flat_map p (map Toggl a) ++ flat_map p (map (fun '(s, e) => Trang e s) b) ++ flat_map p (map (fun '(x, v) => Clone x v) (i_clone j)) ++ flat_map p (map (fun '(k, v) => Kvsto k v) (i_kvsto j))).
  { intros. now rewrite !flat_map_app. }
  split; [|split; [|split]].
  - apply (f_equal (flat_map pt)) in E. rewrite !F in E. rewrite !(fm_one pt) in E by reflexivity. rewrite !(fm_nil pt) in E by (now intros [? ?]). now rewrite !app_nil_r in E.
  - apply (f_equal (flat_map pr)) in E. rewrite !F in E. rewrite !(fm_nil pr Toggl) in E by reflexivity. rewrite !(fm_one pr) in E by (now intros [? ?]). rewrite !(fm_nil pr) in E by (now intros [? ?]). now rewrite !app_nil_r in E.
  - apply (f_equal (flat_map pc)) in E. rewrite !F in E. rewrite !(fm_nil pc Toggl) in E by reflexivity. rewrite !(fm_nil pc (fun '(s, e) => Trang e s)) in E by (now intros [? ?]).
    rewrite !(fm_one pc) in E by (now intros [? ?]). rewrite !(fm_nil pc) in E by (now intros [? ?]). now rewrite !app_nil_r in E.
  - apply (f_equal (flat_map pk)) in E. rewrite !F in E. rewrite !(fm_nil pk Toggl) in E by reflexivity. rewrite !(fm_nil pk (fun '(s, e) => Trang e s)) in E by (now intros [? ?]).
    rewrite !(fm_nil pk (fun '(x, v) => Clone x v)) in E by (now intros [? ?]). rewrite !(fm_one pk) in E by (now intros [? ?]). exact E.
Qed.

(** At most 256 of a kind, one frame, only Huffman coded strings. *)
Definition few (i : instrs) : Prop := (length (n_toggl i) <= 256)%nat /\ (length (n_clone i) <= 256)%nat /\ (length (n_kvsto i) <= 256)%nat.
Lemma text_inj table h i i' : d1_huffman table = Ok h -> In 256%N (map fst table) -> instrs_ok i -> instrs_ok i' -> texts i -> texts i' -> few i -> few i' ->
  forall out, real_ops h i = Ok out -> real_ops h i' = Ok out -> (lenN out < 65536)%N -> same_instrs i i'.
Proof.
  intros Eh Hin Hi Hi' Ht Ht' (F1 & F2 & F3) (F1' & F2' & F3') out E E' Hl. destruct (coder_good table h Eh Hin) as (ws & G & He).
  destruct (real_ops_ok h ws G He i Hi) as (x & _ & Ex & Zx). destruct (real_ops_ok h ws G He i' Hi') as (x' & _ & Ex' & Zx'). rewrite E in Ex. rewrite E' in Ex'.
  assert (Eo : out = (head (N.min (lenN (payload ws i)) 65528) 1 1234 8 ++ payload ws i ++ x)) by congruence.
  assert (Eo' : out = (head (N.min (lenN (payload ws i')) 65528) 1 1234 8 ++ payload ws i' ++ x')) by congruence.
  assert (L : (lenN (payload ws i) < 65528)%N).
  { apply (f_equal (@length N)) in Eo. rewrite !app_length, head_length in Eo. unfold lenN in *. lia. }
  assert (L' : (lenN (payload ws i') < 65528)%N).
  { apply (f_equal (@length N)) in Eo'. rewrite !app_length, head_length in Eo'. unfold lenN in *. lia. }
  rewrite Zx in Eo by (apply N.lt_le_incl; exact L). rewrite Zx' in Eo' by (apply N.lt_le_incl; exact L'). rewrite app_nil_r in Eo, Eo'.
  assert (Ep : payload ws i = payload ws i').
  { rewrite Eo' in Eo. apply (f_equal (skipn 8)) in Eo. cbn [head o16 o32 app skipn] in Eo. now symmetry. }
  rewrite (payload_text ws i Ht), (payload_text ws i' Ht') in Ep.
  assert (Ok1 : forall j, instrs_ok j -> fits (as_instr j)).
  { intros j [J1 J2 J3]. rewrite Forall_forall in *. constructor; cbn [as_instr i_toggl i_clone i_kvsto i_eref].
    - intros y Hy. now apply J1.
    - intros n v Hy. apply in_map_iff in Hy. destruct Hy as (c & Ec & Hc). specialize (J2 c Hc). now rewrite Ec in J2.
    - intros n v Hy. apply in_map_iff in Hy. destruct Hy as (c & Ec & Hc). specialize (J3 c Hc). now rewrite Ec in J3.
    - intros ? ? []. }
  destruct (to_wire1_ok h ws G He (as_instr i) 0 (fits_ok _ (Ok1 i Hi)) ltac:(reflexivity)) as (y & _ & Ey & Zy).
  destruct (to_wire1_ok h ws G He (as_instr i') 0 (fits_ok _ (Ok1 i' Hi')) ltac:(reflexivity)) as (y' & _ & Ey' & Zy').
  rewrite (payload_text ws i Ht) in L. rewrite (payload_text ws i' Ht') in L'.
  rewrite Zy in Ey by (clear - L; lia). rewrite Zy' in Ey' by (clear - L'; lia). rewrite <- Ep in Ey'. rewrite app_nil_r in Ey, Ey'.
  set (blob := hdr1 _ _ _ _ _ ++ _) in *.
  assert (Lb : (N.of_nat (length blob) <= 65536)%N) by (unfold blob; rewrite app_length, hdr1_length; clear - L; unfold lenN in L; lia).
  assert (R : exists ops, from_wire1 h blob = Ok (0%N, ops) /\ says (as_instr i) ops).
  { apply (C42_roundtrip table h Eh Hin); cbn [as_instr i_toggl i_clone i_kvsto i_eref]; rewrite ?map_length; try assumption; [now apply Ok1|reflexivity|cbn [length]; lia]. }
  destruct R as (ops & Er & (s & r & El & Pl)).
  assert (R' : exists ops, from_wire1 h blob = Ok (0%N, ops) /\ says (as_instr i') ops).
  { apply (C42_roundtrip table h Eh Hin); cbn [as_instr i_toggl i_clone i_kvsto i_eref]; rewrite ?map_length; try assumption; [now apply Ok1|reflexivity|cbn [length]; lia]. }
  destruct R' as (ops' & Er' & (s' & r' & El' & Pl')).
  rewrite Er in Er'. assert (Eops : ops = ops') by congruence. rewrite El, El' in Eops.
  destruct (listing_inj (as_instr i) (as_instr i') _ _ _ _ eq_refl eq_refl Eops) as (-> & -> & Ec & Ek). cbn [as_instr i_toggl i_clone i_kvsto] in *.
  assert (B : forall (A : Type) (l l' : list (A * bool)), Forall (fun c => snd c = true) l -> Forall (fun c => snd c = true) l' -> map fst l = map fst l' -> l = l').
  { clear. intros A. induction l as [|[a f] l IH]; intros [|[b g] l'] H H' E; try discriminate; [reflexivity|]. inversion H; inversion H'; subst. cbn [snd map fst] in *. subst.
    assert (a = b) by congruence. subst. f_equal. apply IH; try assumption. congruence. }
  destruct Ht as [T1 T2], Ht' as [T1' T2']. split; [|split].
  - rewrite <- Pl, <- Pl'. reflexivity.
  - now apply B.
  - now apply B.
Qed.

(** ** What writing raises *)

Lemma put_clones_any h ws (G : good h ws) (He : (256 < lenN ws)%N) l : Forall (fun c : Z * str * bool => is_bytes (snd (fst c))) l -> forall b A R, rd b A R ->
  Forall (fun c => idx_ok (fst (fst c))) l \/ refused (put_ops h b (map (fun '(n, v, f) => WClone n v f) l)).
Proof.
  induction 1 as [|[[n v] f] l Hv HF IH]; intros b A R Hb; [left; constructor|]. cbn [map put_ops]. destruct (idx_ok_dec n) as [Hn|Hn].
  - destruct (put_op_ok h ws G He (WClone n v f) b A R (conj Hn Hv) Hb) as (b1 & E1 & B1 & _). rewrite E1. cbn [bind]. destruct (IH b1 A _ B1) as [H|H]; [left; now constructor|now right].
  - right. cbn [put_op]. destruct (pack_int16_bad n b Hn) as [E|E]; rewrite E; [now left|now right].
Qed.
Lemma real_ops_cases h ws (G : good h ws) (He : (256 < lenN ws)%N) i : Forall (fun c => is_bytes (snd (fst c))) (n_clone i) -> Forall (fun c => is_bytes (fst (fst c)) /\ is_bytes (snd (fst c))) (n_kvsto i) ->
  instrs_ok i \/ refused (real_ops h i).
Proof.
  intros Hc Hk. destruct (Forall_dec idx_ok idx_ok_dec (n_toggl i)) as [Ht|Ht]; [|right; now apply real_ops_refused].
  assert (K : Forall (fun c => idx_ok (fst (fst c))) (n_clone i) \/ refused (put_instrs h i)).
  { unfold put_instrs. destruct (toggle_ranges (n_toggl i)) as [ot otr] eqn:Et.
    assert (T1 : Forall is_toggle (map WToggl ot)) by (apply Forall_map, Forall_forall; now cbn).
    assert (T2 : Forall is_toggle (map (fun '(s, e) => WTrang e s) otr)) by (apply Forall_map, Forall_forall; now intros [s e]).
    destruct (put_kind_toggles h KToggl _ T1 bb_new [] [] wr_new) as [[_ (b1 & R1 & E1 & B1)]|[_ [E|E]]]; [|right; rewrite E; now left|right; rewrite E; now right].
    rewrite E1. cbn [bind]. destruct (put_kind_toggles h KTrang _ T2 b1 [] R1 B1) as [[_ (b2 & R2 & E2 & B2)]|[_ [E|E]]]; [|right; rewrite E; now left|right; rewrite E; now right].
    rewrite E2. cbn [bind]. unfold put_kind at 1. destruct (n_clone i) as [|c cs] eqn:Ec; [left; constructor|]. rewrite <- Ec. rewrite <- Ec in Hc.
    assert (En : exists w r, map (fun '(n, v, f) => WClone n v f) (n_clone i) = w :: r) by (rewrite Ec; cbn [map]; eauto). destruct En as (w & r & En). rewrite En. rewrite <- En.
    destruct (rd_store8 b2 [] R2 (kind_val KClone) B2 (kind_val_lt KClone)) as (b3 & E3 & B3). rewrite E3. cbn [bind].
    match goal with |- context [bb_store8 b3 ?n] => destruct (rd_store8 b3 [] _ n B3 ltac:(lia)) as (b4 & E4 & B4) end. rewrite E4. cbn [bind].
    destruct (put_clones_any h ws G He (n_clone i) Hc b4 [] _ B4) as [H|[H|H]]; [now left|right; rewrite H; now left|right; rewrite H; now right]. }
  destruct K as [K|[K|K]]; [left|right; unfold real_ops, serialize; rewrite K; now left|right; unfold real_ops, serialize; rewrite K; now right].
  constructor; [exact Ht| |exact Hk]. rewrite Forall_forall in *. intros c Hin. split; [now apply K|now apply Hc].
Qed.
