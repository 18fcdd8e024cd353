(** * delta_bohe: a new codec and sessions of messages. *)
From Coq Require Import String List NArith ZArith Bool Arith Lia ZifyN ZifyNat Permutation.
From Verif Require Import PyBase PyStr BB_Model D2Huff_Model D1Huff_Model D1Wire_Model D1Wire_Frame Small_Model Bohe_Model DB_Model DB_Proofs DB_Ops.
Import ListNotations.
Open Scope Z_scope.
Open Scope py_scope.

(** ** A new codec *)

(** Adding the defaults is inserting them and putting them aside. *)
Definition shift (t : table) : table :=
  mk_table (b_keys t) (b_nkey t) (b_nlru t) (b_size t) (b_num t) (b_def t ++ map (set_gen None) (b_new t)) (b_old t) [].
Lemma shift_entries t : b_old t = [] -> map pair_of (entries (shift t)) = map pair_of (entries t) /\ map e_idx (entries (shift t)) = map e_idx (entries t).
Proof.
  intros Ho. unfold entries, shift. cbn [b_def b_old b_new]. rewrite Ho. cbn [app]. rewrite app_nil_r, !map_app, !map_map. split; reflexivity.
Qed.
Lemma find_pairs t t' k v : map pair_of (entries t) = map pair_of (entries t') -> find_entry t k v = None -> find_entry t' k v = None.
Proof. intros E. rewrite !find_entry_none. now rewrite E. Qed.
Lemma find_pairs_some t t' k v e : map pair_of (entries t) = map pair_of (entries t') -> find_entry t k v = Some e -> exists e', find_entry t' k v = Some e'.
Proof.
  intros E H. destruct (find_entry t' k v) as [e'|] eqn:E'; [eauto|]. apply (find_pairs t' t) in E'; [congruence|now symmetry].
Qed.
Lemma make_space_shift refs t s a : b_old t = [] -> make_space refs (shift t) s a = let* t := make_space refs t s a in Ok (shift t).
Proof.
  intros Ho. unfold make_space. change (b_num (shift t)) with (b_num t). change (b_size (shift t)) with (b_size t). destruct (max_vals <? b_num t + a).
  - unfold pop_one. change (b_old (shift t)) with (b_old t). now rewrite Ho.
  - destruct (max_state_size <? b_size t + s); reflexivity.
Qed.
Lemma make_space_old refs t s a t' : b_old t = [] -> make_space refs t s a = Ok t' -> b_old t' = [].
Proof. intros Ho E. apply make_space_ok in E. destruct (sh_old _ _ E) as (p & Ep & _). rewrite Ho in Ep. symmetry in Ep. now apply app_eq_nil in Ep. Qed.
Lemma add_defaults_insert ds : forall t, b_old t = [] -> add_defaults (shift t) ds = let* t := insert_all [] 0%N t ds in Ok (shift t).
Proof.
  induction ds as [|[k v] ds IH]; intros t Ho; [reflexivity|]. cbn [add_defaults insert_all]. unfold insert_val.
  assert (A : add_key [] (shift t) k = let* t := add_key [] t k in Ok (shift t)).
  { unfold add_key. change (b_keys (shift t)) with (b_keys t). destruct (key_index (b_keys t) k); [reflexivity|]. rewrite make_space_shift by exact Ho.
    destruct (make_space [] t (slen k) 0); reflexivity. }
  rewrite A, !bind_assoc. destruct (add_key [] t k) as [t1|] eqn:E1; [|reflexivity]. cbn [bind].
  assert (Ho1 : b_old t1 = []).
  { unfold add_key in E1. destruct (key_index (b_keys t) k); [congruence|]. destruct (make_space [] t (slen k) 0) as [t0|] eqn:E0; [|discriminate]. cbn [bind] in E1.
    apply (make_space_old _ _ _ _ _ Ho) in E0. match type of E1 with Ok ?x = _ => assert (t1 = x) by congruence end. subst. exact E0. }
  destruct (shift_entries t1 Ho1) as [Ep _].
  destruct (find_entry t1 k v) as [e|] eqn:Ef.
  - destruct (find_pairs_some _ (shift t1) _ _ _ (eq_sym Ep) Ef) as (e' & ->). reflexivity.
  - rewrite (find_pairs t1 (shift t1) k v (eq_sym Ep) Ef). rewrite make_space_shift by exact Ho1. rewrite !bind_assoc.
    destruct (make_space [k] t1 (slen v) 1) as [t2|] eqn:E2; [|reflexivity]. cbn [bind]. apply (make_space_old _ _ _ _ _ Ho1) in E2.
    rewrite <- IH by exact E2. f_equal. unfold shift. cbn [b_keys b_nkey b_nlru b_size b_num b_def b_old b_new]. f_equal. now rewrite map_app, app_assoc.
Qed.
Lemma shift_wf t : b_old t = [] -> wf t -> wf (shift t).
Proof.
  intros Ho W. destruct (shift_entries t Ho) as [Ep Ei]. apply (perm_wf t); try reflexivity; [exact W|now rewrite Ep|rewrite Ei; apply W| |apply W].
  pose proof (wf_low t W) as H. rewrite Forall_forall in *. intros e He. apply (in_map e_idx) in He. rewrite Ei in He. apply in_map_iff in He. destruct He as (x & <- & Hx). now apply H.
Qed.

Lemma default_names : NoDup (map fst default_dict).
Proof.
  assert (H : (fix nd (l : list str) : bool := match l with [] => true | k :: r => negb (existsb (str_eqb k) r) && nd r end) (map fst default_dict) = true) by (vm_compute; reflexivity).
  revert H. generalize (map fst default_dict). induction l as [|k l IH]; [constructor|]. intros H. apply andb_true_iff in H. destruct H as [H1 H2]. constructor; [|now apply IH].
  intros C. apply negb_true_iff in H1. assert (existsb (str_eqb k) l = true); [|congruence]. apply existsb_exists. exists k. split; [exact C|]. now apply str_eqb_eq.
Qed.
Lemma default_size : total (map fst default_dict) = 664 /\ forallb (fun p => slen (snd p) <=? 5) default_dict = true /\ length default_dict = 63%nat.
Proof. vm_compute. auto. Qed.

Record fresh (ds : list (str * str)) (c : codec) : Prop := mk_fresh {
  fr_ok : codec_ok c;
  fr_gen : c_gen c = 0%N;
  fr_pairs : map pair_of (entries (c_table c)) = ds;
  fr_old : b_old (c_table c) = [];
  fr_off : Forall (fun e => e_gen e = None) (entries (c_table c));
  fr_sized : sized (c_table c);
  fr_names : incl (map fst (b_keys (c_table c))) (map fst ds);
  fr_nlru : b_nlru (c_table c) = 63 }.
Lemma db_new_ok ds : Permutation ds default_dict -> exists c, db_new ds = Ok (Some c) /\ fresh ds c.
Proof.
  intros P. unfold db_new, table_new. set (t0 := mk_table [] 0 0 0 0 [] [] []). change t0 with (shift t0) at 1. rewrite add_defaults_insert by reflexivity. unfold t0.
  destruct default_size as (Hs & Hv & Hl).
  assert (W0 : wf t0) by (constructor; cbn; try constructor; try lia).
  assert (Hnd : NoDup ds).
  { apply (NoDup_map_inv fst). eapply Permutation_NoDup; [apply Permutation_map, Permutation_sym; exact P|]. apply default_names. }
  destruct (insert_all_calm [] 0%N ds t0) as [[Ei H]|(t2 & Ei & Eo & I & Hsz & Hk)].
  - exact W0.
  - exact Hnd.
  - apply Forall_forall. intros p _ [].
  - now left.
  - exfalso. destruct (H eq_refl (map fst default_dict)) as (p & Hp & Hm).
    + cbn [map app t0 b_keys]. intros x Hx. eapply Permutation_in; [apply Permutation_map; exact P|exact Hx].
    + rewrite Hs in Hm. rewrite forallb_forall in Hv. specialize (Hv p (Permutation_in _ P Hp)). apply Z.leb_le in Hv. unfold max_state_size in Hm. lia.
  - fold t0. rewrite Ei. cbn [bind]. eexists. split; [reflexivity|].
    destruct I as [W2 D2 L2 _ _ (es & N2 & P2 & F2)]. cbn [t0 b_def b_old b_new b_nlru app] in *.
    assert (Een : entries (shift t2) = map (set_gen None) es).
    { unfold entries, shift. cbn [b_def b_old b_new]. rewrite D2, Eo, N2. cbn [app]. now rewrite app_nil_r. }
    constructor; cbn [c_table c_gen].
    + split; [now apply shift_wf|]. split; [reflexivity|]. unfold aged. cbn [c_table c_gen]. rewrite Een, Forall_map. apply Forall_forall. intros e _ g Eg. discriminate.
    + reflexivity.
    + rewrite Een, map_map. exact P2.
    + exact Eo.
    + rewrite Een, Forall_map. apply Forall_forall. reflexivity.
    + exact (Hsz eq_refl).
    + exact Hk.
    + cbn [shift b_nlru]. rewrite L2. apply Permutation_length in P. rewrite P, Hl. reflexivity.
Qed.

(** ** Sessions in which nothing is ever thrown away *)

Lemma str_dec (a b : str) : {a = b} + {a <> b}.
Proof. repeat decide equality. Defined.
(** The octets of the different names among [ps]. *)
Definition name_octets (ps : list (str * str)) : Z := total (nodup str_dec (map fst ps)).
Lemma name_octets_eq ps : name_octets ps = total (nodup str_dec (map fst ps)).
Proof. reflexivity. Qed.
(** All the pairs a session may use: few enough for the table and with names and
    values that fit. *)
Record roomy (U : list (str * str)) : Prop := mk_roomy {
  rm_num : (length U <= 961)%nat;
  rm_size : forall p, In p U -> name_octets (default_dict ++ U) + slen (snd p) <= 65536 }.
Record small (ds U : list (str * str)) (c : codec) : Prop := mk_small {
  sm_ok : codec_ok c;
  sm_in : incl (map pair_of (entries (c_table c))) (ds ++ U);
  sm_sized : sized (c_table c);
  sm_names : incl (map fst (b_keys (c_table c))) (map fst (ds ++ U)) }.
Lemma fresh_small ds U c : fresh ds c -> small ds U c.
Proof.
  intros F. constructor.
  - apply F.
  - rewrite (fr_pairs _ _ F). intros x Hx. apply in_app_iff. now left.
  - apply F.
  - intros k Hk. apply (fr_names _ _ F) in Hk. rewrite map_app, in_app_iff. now left.
Qed.

Lemma small_call L ord ds U c headers ps : Permutation ds default_dict -> roomy U -> small ds U c -> ord_ok ord -> pieces L headers = Ok ps -> NoDup ps -> incl ps U ->
  exists c', make_operations L ord c headers = Ok (c', instrs_of L ord (c_gen c) (c_table c) ps) /\ small ds U c' /\ c_gen c' = (c_gen c + 1)%N /\
    Permutation (map core (entries (c_table c'))) (map (core_as (in_group (c_gen c) ps)) (entries (c_table c)) ++ map (fun p => (p, Some (c_gen c))) (news (c_table c) ps)) /\
    Permutation (group (c_table c')) ps /\
    b_nlru (c_table c') = b_nlru (c_table c) + Z.of_nat (length (news (c_table c) ps)) + Z.of_nat (length ps) /\
    Forall (fun e => grouped e = true -> b_nlru (c_table c) + Z.of_nat (length (news (c_table c) ps)) < e_idx e) (entries (c_table c')).
Proof.
  intros P [Rn Rs] [Hok Hin Hsz Hnm] Ho Ep Hnd Hi. pose proof Hok as (W & _ & _).
  destruct (call_calm L ord c headers ps Hok Ho Ep Hnd) as [[_ H]|(c' & Em & Hok' & Eg & Pc & Pg & Hs' & Hk' & En & Fl)].
  - right. rewrite (wf_num _ W). unfold max_vals.
    assert (B : (length (map pair_of (entries (c_table c)) ++ news (c_table c) ps) <= length (ds ++ U))%nat).
    { apply NoDup_incl_length.
      - apply NoDup_app_i; [apply W|now apply news_nodup|]. intros p Hp Hq. apply news_in in Hq. now apply (proj2 Hq).
      - intros p Hp. apply in_app_iff in Hp. destruct Hp as [Hp|Hp]; [now apply Hin|]. apply news_in in Hp. apply in_app_iff. right. now apply Hi. }
    rewrite !app_length, map_length in B. rewrite (Permutation_length P) in B. destruct default_size as (_ & _ & Hl). rewrite Hl in B. lia.
  - exfalso. destruct (H Hsz (nodup str_dec (map fst (default_dict ++ U)))) as (p & Hp & Hm).
    + intros k Hk. apply nodup_In. assert (Hk' : In k (map fst (ds ++ U))).
      { apply in_app_iff in Hk. destruct Hk as [Hk|Hk]; [now apply Hnm|]. rewrite map_app, in_app_iff. right. apply in_map_iff in Hk. destruct Hk as (p & <- & Hp). apply in_map. now apply Hi. }
      exact (Permutation_in _ (Permutation_map fst (Permutation_app_tail U P)) Hk').
    + specialize (Rs p (Hi p Hp)). rewrite name_octets_eq in Rs. revert Rs Hm. generalize (total (nodup str_dec (map fst (default_dict ++ U)))). clear. unfold max_state_size. intros z H1 H2. lia.
  - exists c'. split; [exact Em|]. split; [|auto]. constructor.
    + exact Hok'.
    + intros p Hp. apply in_map_iff in Hp. destruct Hp as (e & <- & He). apply (in_map core) in He. apply (Permutation_in _ Pc) in He. apply in_app_iff in He. destruct He as [He|He].
      * apply in_map_iff in He. destruct He as (x & Ex & Hx). replace (pair_of e) with (pair_of x) by (unfold core, core_as in Ex; congruence). apply Hin. now apply in_map.
      * apply in_map_iff in He. destruct He as (q & Eq & Hq). replace (pair_of e) with q by (unfold core in Eq; congruence). apply news_in in Hq. apply in_app_iff. right. now apply Hi.
    + now apply Hs'.
    + intros k Hk. apply Hk' in Hk. apply in_app_iff in Hk. destruct Hk as [Hk|Hk]; [now apply Hnm|]. rewrite map_app, in_app_iff. right. apply in_map_iff in Hk. destruct Hk as (p & <- & Hp). apply in_map. now apply Hi.
Qed.

Lemma flat_map_nil {A B} (f : A -> list B) l : (forall x, In x l -> f x = []) -> flat_map f l = [].
Proof. induction l as [|a l IH]; intros H; [reflexivity|]. cbn [flat_map]. rewrite (H a (or_introl eq_refl)). apply IH. intros x Hx. apply H. now right. Qed.
(** Nothing to say when the message is the group. *)
Lemma instrs_same L ord gen t ps : wf t -> ord_ok ord -> aged gen t -> (forall p, In p ps <-> In p (group t)) -> instrs_of L ord gen t ps = mk_instrs [] [] [].
Proof.
  intros W Ho Ha Hg.
  assert (Hfind : forall p, In p ps -> exists e, find_entry t (fst p) (snd p) = Some e /\ grouped e = true).
  { intros p Hp. apply Hg in Hp. apply in_map_iff in Hp. destruct Hp as (e & <- & He). apply filter_In in He. exists e. split; [now apply find_entry_in|tauto]. }
  unfold instrs_of. f_equal.
  - replace (flat_map (toggl_of t) ps) with (@nil Z).
    + cbn [app]. destruct (turn_offs ord gen (each (regen (touched gen ps)) t)) as [|i l] eqn:E; [reflexivity|]. exfalso.
      assert (Hi : In i (turn_offs ord gen (each (regen (touched gen ps)) t))) by (rewrite E; now left).
      apply turn_offs_in in Hi; [|exact Ho|now apply aged_stale]. destruct Hi as (e & He & G & Hn & _).
      assert (H : has ps e = true); [|congruence]. apply has_in, Hg. apply in_map. apply filter_In. auto.
    + symmetry. apply flat_map_nil. intros p Hp. destruct (Hfind p Hp) as (e & Ef & G). unfold toggl_of. now rewrite Ef, G.
  - apply flat_map_nil. intros p Hp. destruct (Hfind p Hp) as (e & Ef & _). unfold clone_of. now rewrite Ef.
  - apply flat_map_nil. intros p Hp. destruct (Hfind p Hp) as (e & Ef & _). unfold kvsto_of. now rewrite Ef.
Qed.
