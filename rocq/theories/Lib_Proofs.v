(** * Proofs about lib/. *)
From Coq Require Import String List NArith ZArith Bool Lia Permutation.
From Verif Require Import PyBase PyStr PyMerge Lib_Model Lib_Spec.
Import ListNotations.
Open Scope N_scope.
Open Scope py_scope.

(** ** Pieces and trimming *)

Lemma piece_of_split c s x : piece_of c s x <-> In x (split_on c s).
Proof.
  split.
  - intros (Hx & pre & post & -> & Hpre & Hpost).
    assert (E : In x (split_on c (x ++ post))).
    { destruct Hpost as [->|(post' & ->)].
      - rewrite app_nil_r, split_on_free by auto. now left.
      - rewrite split_on_cons_free by auto. now left. }
    destruct Hpre as [->|(pre' & ->)]; [exact E|].
    rewrite <- app_assoc. cbn [app]. rewrite split_on_app. apply in_or_app. auto.
  - intros Hin. split.
    { pose proof (split_on_nosep c s) as H. rewrite Forall_forall in H. auto. }
    revert x Hin. induction s as [|y s IH]; intros x Hin.
    + destruct Hin as [<-|[]]. exists [], []. cbn. auto.
    + cbn in Hin. destruct (N.eqb_spec y c) as [->|Hy].
      * destruct Hin as [<-|Hin].
        -- exists [], (c :: s). cbn. split; [auto|]. split; [auto|]. right. eauto.
        -- destruct (IH x Hin) as (pre & post & -> & Hpre & Hpost).
           exists (c :: pre), post. split; [reflexivity|]. split; [|exact Hpost]. right.
           destruct Hpre as [->|(pre' & ->)]; [exists []|exists (c :: pre')]; reflexivity.
      * pose proof (split_on_nonempty c s) as Hn. destruct (split_on c s) as [|p ps] eqn:E; [congruence|].
        destruct Hin as [<-|Hin].
        -- destruct (IH p (or_introl eq_refl)) as (pre & post & Es & Hpre & Hpost).
           exists [], (skipn (length p) s). split; [|split; [auto|]].
           ++ cbn [app]. f_equal. pose proof (join_split c s) as J. rewrite E in J.
              rewrite <- J. destruct ps as [|q qs].
              ** cbn [join]. rewrite skipn_all. now rewrite app_nil_r.
              ** change (join [c] (p :: q :: qs)) with (p ++ c :: join [c] (q :: qs)).
                 rewrite skipn_app, skipn_all, Nat.sub_diag. reflexivity.
           ++ pose proof (join_split c s) as J. rewrite E in J. rewrite <- J. destruct ps as [|q qs].
              ** left. cbn [join]. apply skipn_all.
              ** right. change (join [c] (p :: q :: qs)) with (p ++ c :: join [c] (q :: qs)).
                 rewrite skipn_app, skipn_all, Nat.sub_diag. cbn. eauto.
        -- assert (Hin' : In x (p :: ps)) by now right.
           clear Hn. destruct ps as [|q qs]; [destruct Hin|].
           pose proof (join_split c s) as J. rewrite E in J.
           change (join [c] (p :: q :: qs)) with (p ++ c :: join [c] (q :: qs)) in J.
           assert (Hq : split_on c (join [c] (q :: qs)) = q :: qs).
           { apply split_on_join; [discriminate|]. pose proof (split_on_nosep c s) as HF. rewrite E in HF. now inversion HF. }
           (* position of x in the tail *)
           assert (HT : exists pre post, join [c] (q :: qs) = pre ++ x ++ post /\
              (pre = [] \/ exists pre', pre = pre' ++ [c]) /\ (post = [] \/ exists post', post = c :: post')).
           { clear -Hin. generalize dependent q. induction qs as [|r qs IH]; intros q [<-|Hin].
             - exists [], []. cbn. rewrite app_nil_r. auto.
             - destruct Hin.
             - exists [], (c :: join [c] (r :: qs)). split; [reflexivity|]. split; [auto|]. right. eauto.
             - destruct (IH r Hin) as (pre & post & E1 & H1 & H2).
               exists (q ++ c :: pre), post. split.
               + change (join [c] (q :: r :: qs)) with (q ++ c :: join [c] (r :: qs)). rewrite E1.
                 rewrite <- app_assoc. reflexivity.
               + split; [|exact H2]. right. destruct H1 as [->|(pre' & ->)].
                 * exists q. reflexivity.
                 * exists (q ++ c :: pre'). rewrite <- app_assoc. reflexivity. }
           destruct HT as (pre & post & E1 & H1 & H2). rewrite E1 in J.
           exists (y :: p ++ c :: pre), post. split.
           { cbn. rewrite <- J, <- app_assoc. reflexivity. }
           split; [|exact H2]. right. destruct H1 as [->|(pre' & ->)].
           ++ exists (y :: p). reflexivity.
           ++ exists (y :: p ++ c :: pre'). cbn. rewrite <- app_assoc. reflexivity.
Qed.

Lemma blank_forall l : Forall (fun c => is_blank c = true) l <-> Forall (fun c => c = 32) l.
Proof.
  split; intros H; (eapply Forall_impl; [|exact H]); unfold is_blank; intros c.
  - now intros ->%N.eqb_eq.
  - intros ->. reflexivity.
Qed.

Lemma no_ends_blank y : no_ends is_blank y <-> hd 0 y <> 32 /\ last y 0 <> 32.
Proof.
  unfold no_ends, is_blank. destruct y as [|a y].
  - cbn. split; intros; repeat split; lia.
  - assert (E : exists z t, rev (a :: y) = z :: t /\ last (a :: y) 0 = z).
    { destruct (rev (a :: y)) as [|z t] eqn:E.
      - apply (f_equal (@length N)) in E. rewrite rev_length in E. discriminate.
      - exists z, t. split; [reflexivity|]. apply (f_equal (@rev N)) in E. rewrite rev_involutive in E. rewrite E.
        cbn. apply last_last. }
    destruct E as (z & t & -> & ->). cbn [hd]. split.
    + intros [H1 H2]. split; now apply N.eqb_neq.
    + intros [H1 H2]. split; now apply N.eqb_neq.
Qed.

Lemma trimmed_strip x y : trimmed x y <-> y = strip is_blank x.
Proof.
  split.
  - intros (l & r & -> & Hl & Hr & Hy). symmetry. apply strip_unique.
    + now apply blank_forall.
    + now apply blank_forall.
    + now apply no_ends_blank.
  - intros ->. destruct (strip_spec is_blank x) as (l & r & E & Hl & Hr & Hn).
    exists l, r. split; [exact E|]. split; [now apply blank_forall|]. split; [now apply blank_forall|].
    now apply no_ends_blank.
Qed.

Lemma is_space_white c : is_space c = true <-> white c.
Proof.
  unfold is_space, white. rewrite orb_true_iff, andb_true_iff, N.eqb_eq, !N.leb_le. tauto.
Qed.

Lemma last_rev {A} (l : list A) d : last l d = hd d (rev l).
Proof.
  destruct l as [|a l] using rev_ind; [reflexivity|]. rewrite rev_unit. cbn. now rewrite last_last.
Qed.

Lemma no_ends_space y : (y = [] \/ ~ white (hd 0 y) /\ ~ white (last y 0)) -> no_ends is_space y.
Proof.
  intros [->|[H1 H2]]; [apply no_ends_nil|]. rewrite last_rev in H2. unfold no_ends. split.
  - destruct y as [|a y]; [exact I|]. cbn in H1. destruct (is_space a) eqn:E; [|reflexivity]. now apply is_space_white in E.
  - destruct (rev y) as [|a r]; [exact I|]. cbn in H2. destruct (is_space a) eqn:E; [|reflexivity]. now apply is_space_white in E.
Qed.

Lemma carries_split d k y : carries d k y <-> exists v, In (k, v) d /\ In y (split_value k v).
Proof.
  unfold carries, split_value. split.
  - intros (v & x & Hin & Hp & Ht). exists v. split; [exact Hin|].
    apply trimmed_strip in Ht as ->. apply piece_of_split in Hp.
    destruct (str_eqb k (lit "cookie")); now apply in_map.
  - intros (v & Hin & Hy). exists v.
    assert (H : exists x, In x (split_on (if str_eqb k (lit "cookie") then 59 else 0) v) /\ y = strip is_blank x).
    { destruct (str_eqb k (lit "cookie")); apply in_map_iff in Hy as (x & <- & Hx); eauto. }
    destruct H as (x & Hx & ->). exists x. split; [exact Hin|]. split; [now apply piece_of_split|].
    now apply trimmed_strip.
Qed.

(** ** compare_headers *)

Lemma ignored_mem k : mem_str k compare_ignores = true <-> ignored_name k.
Proof.
  destruct (mem_str_spec k compare_ignores) as [H|H].
  - split; [intros _|reflexivity]. unfold ignored_name. cbn in H. intuition.
  - split; [discriminate|]. intros Hi. exfalso. apply H. unfold ignored_name in Hi. cbn. intuition.
Qed.

Lemma normalize_in d k y : In (k, y) (normalize_dict compare_ignores d) <-> ~ ignored_name k /\ carries d k y.
Proof.
  unfold normalize_dict. rewrite nodup_In, in_flat_map, carries_split. split.
  - intros ([k' v] & Hin & H). destruct (mem_str k' compare_ignores) eqn:Em; [destruct H|].
    apply in_map_iff in H as (x & [= -> ->] & Hx). split; [|eauto].
    intros Hi. apply ignored_mem in Hi. congruence.
  - intros [Hi (v & Hin & Hy)]. exists (k, v). split; [exact Hin|].
    destruct (mem_str k compare_ignores) eqn:Em; [apply ignored_mem in Em; contradiction|].
    apply in_map_iff. eauto.
Qed.

Lemma join_nil_iff sep l : Forall (fun s => s <> []) l -> (join sep l = [] <-> l = []).
Proof.
  intros H. split; [|now intros ->]. destruct l as [|x l]; [auto|]. inversion H; subst.
  destruct l; cbn [join]; intros E; [congruence|]. apply app_eq_nil in E. tauto.
Qed.

Lemma report_nonempty n only : Forall (fun s => s <> []) (report_only n only).
Proof.
  unfold report_only. destruct only as [|x l]; [constructor|]. constructor; [discriminate|].
  apply Forall_forall. intros s Hs. apply in_map_iff in Hs as ([k v] & <- & _). discriminate.
Qed.

Lemma report_nil n only : report_only n only = [] <-> only = [].
Proof. destruct only; cbn; split; congruence. Qed.

Definition is_order (ord : list (str * str) -> list (str * str)) : Prop := forall l, Permutation (ord l) l.

Lemma ord_nil ord l : is_order ord -> (ord l = [] <-> l = []).
Proof.
  intros Ho. specialize (Ho l). split; intros E; rewrite E in Ho.
  - now apply Permutation_nil.
  - subst l. apply Permutation_nil. now apply Permutation_sym.
Qed.

Lemma filter_nil_iff {A} (f : A -> bool) l : filter f l = [] <-> forall x, In x l -> f x = false.
Proof.
  induction l as [|a l IH]; cbn; [split; [intros _ x []|auto]|].
  destruct (f a) eqn:E; split.
  - discriminate.
  - intros H. rewrite H in E by auto. discriminate.
  - intros H x [<-|Hx]; [exact E|]. now apply IH.
  - intros H. apply IH. auto.
Qed.

Lemma mem_pair_true x l : mem_pair x l = true <-> In x l.
Proof. unfold mem_pair. destruct (in_dec pair_eq_dec x l); split; auto; discriminate. Qed.

Lemma compare_verdict ord a an b bn : is_order ord ->
  (compare_headers ord a an b bn = [] <-> same_content a b).
Proof.
  intros Ho. unfold compare_headers, compare_headers_impl.
  rewrite join_nil_iff by (apply Forall_app; split; apply report_nonempty).
  assert (E : forall l l' : list str, l ++ l' = [] <-> l = [] /\ l' = []).
  { intros l l'. split; [apply app_eq_nil|now intros [-> ->]]. }
  rewrite E, !report_nil, !(ord_nil ord) by auto. rewrite !filter_nil_iff.
  unfold same_content. split.
  - intros [H1 H2] k y Hk. split; intros Hc.
    + assert (Hin : In (k, y) (normalize_dict compare_ignores a)) by (apply normalize_in; auto).
      apply H1 in Hin. apply negb_false_iff, mem_pair_true, normalize_in in Hin. tauto.
    + assert (Hin : In (k, y) (normalize_dict compare_ignores b)) by (apply normalize_in; auto).
      apply H2 in Hin. apply negb_false_iff, mem_pair_true, normalize_in in Hin. tauto.
  - intros H. split; intros [k y] Hin; apply normalize_in in Hin as [Hk Hc];
      apply negb_false_iff, mem_pair_true, normalize_in; (split; [exact Hk|]); now apply (H k y Hk).
Qed.

(** The report lists exactly the differing pairs. *)
Lemma impl_only a b k y :
  (In (k, y) (fst (compare_headers_impl a b compare_ignores)) <->
     ~ ignored_name k /\ carries a k y /\ ~ carries b k y) /\
  (In (k, y) (snd (compare_headers_impl a b compare_ignores)) <->
     ~ ignored_name k /\ carries b k y /\ ~ carries a k y).
Proof.
  unfold compare_headers_impl. cbn [fst snd]. rewrite !filter_In, !negb_true_iff.
  assert (HM : forall d, mem_pair (k, y) (normalize_dict compare_ignores d) = false <->
                 ~ (~ ignored_name k /\ carries d k y)).
  { intros d. rewrite <- normalize_in, <- mem_pair_true. destruct (mem_pair _ _); split; congruence. }
  rewrite !HM, !normalize_in. tauto.
Qed.

(** ** filter_headers *)

Lemma fold_dset_filter (ig : list str) : forall d acc : hdict, is_dict (acc ++ d) ->
  fold_left (fun new '(k, v) => if mem_str k ig then new else dset new k v) d acc
  = acc ++ filter (fun kv : str * str => negb (mem_str (fst kv) ig)) d.
Proof.
  induction d as [|[k v] d IH]; intros acc HN; cbn [fold_left filter fst].
  - now rewrite app_nil_r.
  - assert (HN' : is_dict (acc ++ d)).
    { unfold is_dict, keys in *. rewrite map_app in *. cbn in HN. now apply NoDup_remove_1 in HN. }
    assert (Hk : dget acc k = None).
    { apply dget_none. unfold is_dict, keys in HN. rewrite map_app in HN. cbn in HN. apply NoDup_remove_2 in HN.
      intros Hin. apply HN, in_or_app. auto. }
    destruct (mem_str k ig); cbn [negb].
    + now apply IH.
    + rewrite (dset_new acc k v Hk). rewrite IH.
      * now rewrite <- app_assoc.
      * now rewrite <- app_assoc.
Qed.

Definition ignore_list (d : hdict) : list str :=
  [lit ":status-text"; lit ":version"; lit "keep-alive"; lit "connection"] ++
  match dget d (lit "connection") with
  | Some c => map (strip is_blank) (split_on 44 c)
  | None => []
  end.

Lemma filter_headers_eq d : is_dict d ->
  filter_headers d = filter (fun kv => negb (mem_str (fst kv) (ignore_list d))) d.
Proof. intros H. unfold filter_headers. fold (ignore_list d). now rewrite fold_dset_filter. Qed.

Lemma ignore_list_spec d k : is_dict d -> (In k (ignore_list d) <-> hop_by_hop d k).
Proof.
  intros HD. unfold ignore_list, hop_by_hop. rewrite in_app_iff. apply or_iff_compat_l. split.
  - intros H. destruct (dget d (lit "connection")) as [c|] eqn:E; [|destruct H].
    apply in_map_iff in H as (x & <- & Hx). exists c, x. split; [now apply dget_in|].
    split; [now apply piece_of_split|]. now apply trimmed_strip.
  - intros (c & x & Hin & Hp & Ht). rewrite (in_dget d _ _ HD Hin).
    apply trimmed_strip in Ht as ->. apply in_map. now apply piece_of_split.
Qed.

Lemma subseq_filter {A} (f : A -> bool) l : subseq (filter f l) l.
Proof. induction l as [|x l IH]; cbn; [constructor|]. destruct (f x); now constructor. Qed.

Lemma filter_spec d : is_dict d ->
  subseq (filter_headers d) d /\
  forall k v, In (k, v) (filter_headers d) <-> In (k, v) d /\ ~ hop_by_hop d k.
Proof.
  intros HD. rewrite filter_headers_eq by auto. split; [apply subseq_filter|].
  intros k v. rewrite filter_In. cbn [fst]. rewrite negb_true_iff, <- (ignore_list_spec d k HD).
  destruct (mem_str_spec k (ignore_list d)); intuition congruence.
Qed.

Lemma keys_filter_nodup {V} (f : str * V -> bool) (d : dict V) : is_dict d -> is_dict (filter f d).
Proof.
  unfold is_dict, keys. induction d as [|x d IH]; cbn; [auto|]. intros H. inversion H as [|? ? Hn HN]; subst.
  destruct (f x); [|auto]. cbn. constructor; [|auto]. intros Hin. apply Hn.
  apply in_map_iff in Hin as (y & <- & Hy). apply filter_In in Hy. apply in_map. tauto.
Qed.

Lemma filter_all {A} (f : A -> bool) l : (forall x, In x l -> f x = true) -> filter f l = l.
Proof.
  induction l as [|x l IH]; cbn; intros H; [reflexivity|]. rewrite (H x) by auto. f_equal. auto.
Qed.

Lemma filter_idem d : is_dict d -> filter_headers (filter_headers d) = filter_headers d.
Proof.
  intros HD. rewrite (filter_headers_eq d HD). set (f := fun kv : str * str => negb (mem_str (fst kv) (ignore_list d))).
  assert (HD' : is_dict (filter f d)) by now apply keys_filter_nodup.
  rewrite (filter_headers_eq _ HD'). apply filter_all.
  intros [k v] Hin. cbn [fst]. apply negb_true_iff.
  assert (Hc : dget (filter f d) (lit "connection") = None).
  { apply dget_none. intros Hk. apply in_map_iff in Hk as ([k' v'] & E & Hk). cbn in E. subst k'.
    apply filter_In in Hk as [_ Hk]. discriminate. }
  unfold ignore_list. rewrite Hc, app_nil_r.
  apply filter_In in Hin as [_ Hin]. unfold f in Hin. cbn [fst] in Hin. apply negb_true_iff in Hin.
  destruct (mem_str_spec k (ignore_list d)) as [H|H]; [discriminate|].
  destruct (mem_str_spec k [lit ":status-text"; lit ":version"; lit "keep-alive"; lit "connection"]) as [H'|H']; [|reflexivity].
  exfalso. apply H. unfold ignore_list. apply in_or_app. auto.
Qed.

(** ** process_headers *)

Lemma lower_nil n : lower n = [] <-> n = [].
Proof. destruct n; cbn; split; congruence. Qed.

Definition joined (l : list str) : option str := match l with [] => None | _ => Some (join [0] l) end.

Lemma ph_loop_spec hs : forall pre out, is_dict out ->
  (forall k, dget out k = joined (values_of k pre)) ->
  match process_headers_loop hs out with
  | Ok out' => is_dict out' /\ Forall (fun h => fst h <> []) hs /\
      (forall k, dget out' k = joined (values_of k (pre ++ hs)))
  | Err e => e = GenericException /\ Exists (fun h => fst h = []) hs
  end.
Proof.
  induction hs as [|[n v] hs IH]; intros pre out HD HI; cbn [process_headers_loop].
  - rewrite app_nil_r. auto.
  - destruct (lower n) as [|c nm] eqn:En.
    { split; [reflexivity|]. left. cbn. now apply lower_nil. }
    rewrite <- En. fold (har_name n).
    assert (Hn : n <> []). { intros ->. discriminate. }
    set (out1 := match dget out (har_name n) with Some old => _ | None => _ end).
    assert (HD1 : is_dict out1) by (unfold out1; destruct (dget out (har_name n)); now apply is_dict_dset).
    assert (HI1 : forall k, dget out1 k = joined (values_of k (pre ++ [(n, v)]))).
    { intros k. unfold values_of. rewrite filter_app, map_app. cbn [filter fst]. fold (values_of k pre).
      assert (Ek : dget out1 k = if str_eqb k (har_name n) then
                 Some (match dget out (har_name n) with Some old => old ++ [0] ++ v | None => v end) else dget out k).
      { unfold out1. destruct (dget out (har_name n)); apply dget_dset. }
      rewrite Ek. destruct (str_eqb_spec k (har_name n)) as [Hk|Hk].
      - rewrite Hk, str_eqb_refl. cbn [map snd]. rewrite HI. unfold joined.
        destruct (values_of (har_name n) pre) as [|w ws] eqn:Ew; [reflexivity|].
        rewrite join_snoc by discriminate. reflexivity.
      - destruct (str_eqb_spec (har_name n) k) as [E|_]; [congruence|]. cbn [map]. rewrite app_nil_r. apply HI. }
    specialize (IH _ _ HD1 HI1). destruct (process_headers_loop hs out1) as [o|e].
    + destruct IH as (A & B & C). split; [exact A|]. split; [constructor; auto|].
      intros k. rewrite C, <- app_assoc. reflexivity.
    + destruct IH as [-> IH]. split; [reflexivity|]. now right.
Qed.

Lemma process_headers_spec hs :
  match process_headers hs with
  | Ok out => is_dict out /\ Forall (fun h => fst h <> []) hs /\
      (forall k, dget out k = joined (values_of k hs))
  | Err e => e = GenericException /\ Exists (fun h => fst h = []) hs
  end.
Proof. apply (ph_loop_spec hs [] []); [constructor|reflexivity]. Qed.

(** ** har2hdrs *)

Lemma har_request_host urlq so_far e scheme path query rq :
  har_request so_far e scheme path query = Ok rq -> urlq = h_url e ->
  dget rq (lit ":host") = Some (host_of_url urlq).
Proof.
  unfold har_request. intros E ->. apply bind_ok in E as (h & _ & E).
  assert (Hn : existsb (str_is_dict (lit ":host")) so_far = false).
  { induction so_far as [|d l IH]; cbn; auto. }
  rewrite Hn in E. cbn [negb] in E.
  match type of E with Ok (dset ?d ?k ?v) = _ => assert (E' : dset d k v = rq) by congruence end.
  rewrite <- E', dget_dset, str_eqb_refl. reflexivity.
Qed.

(** ** Streamifiers *)

Definition host_key (key : str -> str) (x : exchange) : option str := option_map key (dget (fst x) (lit ":host")).

Lemma dget_or_ddefault {A} (d : dict (list A)) k x k' :
  dget_or_nil (ddefault d k x) k' = dget_or_nil d k' ++ (if str_eqb k' k then [x] else []).
Proof.
  unfold dget_or_nil, ddefault. rewrite dget_dset. destruct (str_eqb_spec k' k) as [->|H].
  - destruct (dget d k); reflexivity.
  - now rewrite app_nil_r.
Qed.

(** The exchanges of a host, in order. *)
Definition with_key (key : str -> str) (k : str) (ms : list exchange) : list exchange :=
  filter (fun x => match host_key key x with Some k' => str_eqb k k' | None => false end) ms.

Definition shown_host (shown : str -> str) (x : exchange) : str :=
  match dget (fst x) (lit ":host") with Some h => shown h | None => [] end.

Lemma group_loop_spec key shown ms : forall pre names reqs ress names' reqs' ress',
  NoDup names ->
  (forall k, In k names <-> with_key key k pre <> []) ->
  (forall k, dget_or_nil reqs k = map (fun x => (fst x, shown_host shown x)) (with_key key k pre)) ->
  (forall k, dget_or_nil ress k = map (fun x => (snd x, shown_host shown x)) (with_key key k pre)) ->
  group_loop key shown ms names reqs ress = Ok (names', reqs', ress') ->
  Forall (fun x => host_key key x <> None) ms /\
  NoDup names' /\ (forall k, In k names' <-> with_key key k (pre ++ ms) <> []) /\
  (forall k, dget_or_nil reqs' k = map (fun x => (fst x, shown_host shown x)) (with_key key k (pre ++ ms))) /\
  (forall k, dget_or_nil ress' k = map (fun x => (snd x, shown_host shown x)) (with_key key k (pre ++ ms))).
Proof.
  induction ms as [|[rq rs] ms IH]; intros pre names reqs ress names' reqs' ress' HN Hn Hq Hs E; cbn [group_loop] in E.
  - injection E as <- <- <-. rewrite app_nil_r. auto.
  - destruct (dget rq (lit ":host")) as [h|] eqn:Eh; [|discriminate].
    assert (Hk : host_key key (rq, rs) = Some (key h)) by (unfold host_key; cbn [fst]; now rewrite Eh).
    assert (Hsh : shown_host shown (rq, rs) = shown h) by (unfold shown_host; cbn [fst]; now rewrite Eh).
    assert (Hw : forall k, with_key key k (pre ++ [(rq, rs)]) =
              with_key key k pre ++ (if str_eqb k (key h) then [(rq, rs)] else [])).
    { intros k. unfold with_key. rewrite filter_app. cbn [filter]. rewrite Hk. reflexivity. }
    apply (IH (pre ++ [(rq, rs)])) in E.
    + rewrite <- app_assoc in E. cbn [app] in E. destruct E as (A & B). split; [|exact B].
      constructor; [congruence|exact A].
    + destruct (mem_str_spec (key h) names) as [H|H]; [exact HN|]. now apply NoDup_snoc.
    + intros k. rewrite Hw. destruct (mem_str_spec (key h) names) as [H|H].
      * rewrite Hn. destruct (str_eqb_spec k (key h)) as [->|Hne].
        -- apply Hn in H. split; [|auto]. intros _ E0. apply app_eq_nil in E0. tauto.
        -- rewrite app_nil_r. tauto.
      * rewrite in_app_iff, Hn. cbn [In]. destruct (str_eqb_spec k (key h)) as [->|Hne].
        -- split; [|auto]. intros _ E0. apply app_eq_nil in E0 as [_ E0]. discriminate.
        -- rewrite app_nil_r. split; [intros [H1|[H1|[]]]; [auto|congruence]|auto].
    + intros k. rewrite dget_or_ddefault, Hw, map_app, Hq. f_equal.
      destruct (str_eqb k (key h)); [|reflexivity]. cbn. now rewrite Hsh.
    + intros k. rewrite dget_or_ddefault, Hw, map_app, Hs. f_equal.
      destruct (str_eqb k (key h)); [|reflexivity]. cbn. now rewrite Hsh.
Qed.

Lemma partition_perm key ms : forall names, NoDup names ->
  (forall x, In x ms -> exists k, host_key key x = Some k /\ In k names) ->
  Permutation (flat_map (fun k => with_key key k ms) names) ms.
Proof.
  induction ms as [|x ms IH]; intros names HN Hc.
  - replace (flat_map (fun k => with_key key k []) names) with (@nil exchange); [constructor|].
    clear. induction names; cbn; auto.
  - destruct (Hc x (or_introl eq_refl)) as (k & Hk & Hin).
    apply in_split in Hin as (n1 & n2 & ->).
    assert (H1 : forall n, ~ In k n -> flat_map (fun k => with_key key k (x :: ms)) n = flat_map (fun k => with_key key k ms) n).
    { induction n as [|a n IHn]; cbn [flat_map]; intros Ha; [reflexivity|]. rewrite IHn by (intros H; apply Ha; now right). f_equal.
      unfold with_key. cbn [filter]. rewrite Hk. destruct (str_eqb_spec a k) as [->|]; [exfalso; apply Ha; now left|reflexivity]. }
    pose proof (NoDup_remove_2 _ _ _ HN) as Hnot.
    rewrite flat_map_app. cbn [flat_map]. rewrite (H1 n1), (H1 n2) by (intros H; apply Hnot, in_or_app; auto).
    assert (Hx : with_key key k (x :: ms) = x :: with_key key k ms).
    { unfold with_key. cbn [filter]. rewrite Hk, str_eqb_refl. reflexivity. }
    rewrite Hx. etransitivity; [symmetry; apply Permutation_middle|]. constructor.
    specialize (IH (n1 ++ k :: n2) HN). rewrite flat_map_app in IH. cbn [flat_map] in IH. apply IH.
    intros y Hy. apply Hc. now right.
Qed.
