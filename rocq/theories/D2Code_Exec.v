(** * Executing operations that refer to live entries. *)
From Coq Require Import String List NArith ZArith Bool Arith Lia Permutation Sorted.
From Verif Require Import PyBase PyStr Lib_Model D2Store_Model D2Store_Proofs Prop_D2Store D2Wire_Model D2Code_Model Prop_D2Ranges D2Code_Sets D2Code_Store.
Import ListNotations.
Open Scope Z_scope.
Open Scope py_scope.

Record kinv (k : code) : Prop := {
  ki_cfg : cfg_ok (k_cfg k);
  ki_store : sinv (k_cfg k) (k_store k);
  ki_groups : gall (live (k_store k)) (k_groups k) }.

Lemma kinv_new o : exists k, code_new o = Ok k /\ k_cfg k = config o /\ kinv k.
Proof.
  destruct (code_new_ok o) as (k & E & Ec & Hs & Hg & _). exists k. split; [exact E|]. split; [exact Ec|]. split; rewrite ?Ec; auto using config_ok.
  rewrite Hg. constructor.
Qed.

(** The header an index stands for. *)
Definition kvof (s : storage) (i : Z) : str * str :=
  match lookup_idx s i with Ok (e, _) => (kv_key e, kv_val e) | Err _ => ([], []) end.

Definition toggles (e : bool) (ops : list op) : list Z :=
  flat_map (fun o => match o with
    | OToggl e' i => if Bool.eqb e e' then [i] else []
    | OTrang e' i st => if Bool.eqb e e' then xrange st (i + 1) else []
    | _ => [] end) ops.
Definition lits (s : storage) (ops : list op) : list (str * str) :=
  flat_map (fun o => match o with OClone _ i v => [(fst (kvof s i), v)] | OKvsto _ k v => [(k, v)] | _ => [] end) ops.
Definition app2 (h : hdict) (p : str * str) : hdict := append_to_headers h (fst p) (snd p).
Definition clones_live (s : storage) (ops : list op) : Prop :=
  (forall e i v, In (OClone e i v) ops -> live s i) /\ (forall e i st, In (OTrang e i st) ops -> xrange_fits st (i + 1) = true).

Lemma toggle_fold e is : forall x, fold_left (toggle e) is x =
  if e then mk_x (x_heap x) (x_st x) (zsymdiff (x_et x) is) (x_headers x) (x_later x)
  else mk_x (x_heap x) (zsymdiff (x_st x) is) (x_et x) (x_headers x) (x_later x).
Proof.
  induction is as [|i is IH]; intros x; cbn [fold_left]; [destruct x, e; reflexivity|]. rewrite IH. unfold toggle. destruct e; reflexivity.
Qed.

Lemma zsymdiff_app s a b : zsymdiff s (a ++ b) = zsymdiff (zsymdiff s a) b.
Proof. apply fold_left_app. Qed.

Lemma lookup_kvof c s i : cfg_ok c -> sinv c s -> live s i -> exists e, lookup_idx s i = Ok (e, i) /\ kvof s i = (kv_key e, kv_val e).
Proof.
  intros Hc Hs Hl. destruct (lookup_live c s i Hc Hs Hl) as (e & E & _). exists e. split; [exact E|]. unfold kvof. now rewrite E.
Qed.

Lemma exec_loop_ok c s : cfg_ok c -> sinv c s -> forall ops x, clones_live s ops ->
  exists x', exec_loop s x ops = Ok x' /\ x_st x' = zsymdiff (x_st x) (toggles false ops) /\ x_et x' = zsymdiff (x_et x) (toggles true ops) /\
  x_headers x' = fold_left app2 (lits s ops) (x_headers x).
Proof.
  intros Hc Hs. induction ops as [|o ops IH]; intros x Hl; cbn [exec_loop]; [exists x; repeat split|].
  assert (Hl' : clones_live s ops) by (destruct Hl as [H1 H2]; split; intros; [eapply H1|eapply H2]; right; eassumption).
  assert (S : exists x1, exec_op s x o = Ok x1 /\ x_st x1 = zsymdiff (x_st x) (toggles false [o]) /\ x_et x1 = zsymdiff (x_et x) (toggles true [o]) /\
    x_headers x1 = fold_left app2 (lits s [o]) (x_headers x)).
  { unfold toggles, lits. cbn [flat_map]. destruct o as [e i|e i st|e i v|e k v]; cbn [exec_op].
    - eexists. split; [reflexivity|]. destruct e; cbn; auto.
    - destruct Hl as [_ Hl]. rewrite (Hl e i st (or_introl eq_refl)). eexists. split; [reflexivity|]. rewrite toggle_fold, !app_nil_r. destruct e; cbn; auto.
    - destruct (lookup_kvof c s i Hc Hs (proj1 Hl e i v (or_introl eq_refl))) as (e1 & E1 & E2). rewrite E1, E2. cbn [bind]. cbv zeta.
      destruct e; [eexists; split; [reflexivity|]; cbn; auto|].
      destruct (kv_new _ _ _) as [h n]. eexists. split; [reflexivity|]. cbn. auto.
    - cbv zeta. destruct e; [eexists; split; [reflexivity|]; cbn; auto|].
      destruct (kv_new _ _ _) as [h n]. eexists. split; [reflexivity|]. cbn. auto. }
  destruct S as (x1 & E1 & A1 & A2 & A3). rewrite E1. cbn [bind]. destruct (IH x1 Hl') as (x' & E' & B1 & B2 & B3).
  exists x'. split; [exact E'|]. rewrite B1, B2, B3, A1, A2, A3. unfold toggles, lits. cbn [flat_map]. rewrite !app_nil_r.
  rewrite !zsymdiff_app, fold_left_app. auto.
Qed.

Lemma append_refs_ok c s : cfg_ok c -> sinv c s -> forall refs hd, Forall (live s) refs -> append_refs s hd refs = Ok (fold_left app2 (map (kvof s) refs) hd).
Proof.
  intros Hc Hs. induction refs as [|i r IH]; intros hd Hl; cbn [append_refs map fold_left]; [reflexivity|]. inversion Hl as [|? ? H1 H2]; subst.
  destruct (lookup_kvof c s i Hc Hs H1) as (e1 & E1 & E2). rewrite E1, E2. cbn [bind]. rewrite (IH _ H2). reflexivity.
Qed.

Lemma mapm_ok {A B} (f : A -> res B) l : (forall x, In x l -> exists y, f x = Ok y) -> exists l', mapm f l = Ok l'.
Proof.
  induction l as [|x l IH]; intros H; cbn [mapm]; [eauto|]. destruct (H x (or_introl eq_refl)) as (y & E). rewrite E. cbn [bind].
  destruct IH as (l' & E'); [intros; apply H; now right|]. rewrite E'. cbn [bind]. eauto.
Qed.

Definition cur_of (k : code) (gid : N) : zset := match gget (find_or_make (k_groups k) gid) gid with Some z => z | None => [] end.

Lemma cur_of_ok k gid : kinv k -> zsorted (cur_of k gid) /\ Forall (live (k_store k)) (cur_of k gid).
Proof.
  intros [_ _ H]. unfold cur_of. destruct (find_or_make_get (k_groups k) gid) as (s & E). rewrite E. eapply gall_get; [|exact E]. now apply gall_find.
Qed.

Lemma execute_ok ref k ops ops' gid : kinv k -> lru_to_hg_ops (k_cfg k) (k_store k) ops = Ok ops' -> clones_live (k_store k) ops' ->
  let cur := zsymdiff (cur_of k gid) (zsymdiff [] (toggles false ops')) in
  let refs := zsymdiff (zsymdiff [] (toggles true ops')) cur in
  Forall (live (k_store k)) cur -> Forall (live (k_store k)) (ref refs) ->
  exists k', execute_ops ref k ops gid = Ok (k', cookie_nul (fold_left app2 (lits (k_store k) ops' ++ map (kvof (k_store k)) (ref refs)) [])) /\ kinv k' /\
  k_cfg k' = k_cfg k.
Proof.
  intros K Eo Hcl cur refs Hcur Hrefs. pose proof K as [Hc Hs Hg]. unfold execute_ops. cbv zeta. rewrite Eo. cbn [bind].
  destruct (exec_loop_ok _ _ Hc Hs ops' (mk_x (s_heap (k_store k)) [] [] [] []) Hcl) as (x & E & A1 & A2 & A3). rewrite E. cbn [bind].
  cbn [x_st x_et x_headers] in A1, A2, A3. rewrite A1, A2, A3.
  change (y_cur gid (mk_y (mk_storage (x_heap x) (s_static (k_store k)) (s_lru (k_store k))) (find_or_make (k_groups k) gid) None)) with (cur_of k gid).
  fold cur. fold refs. set (s1 := mk_storage (x_heap x) (s_static (k_store k)) (s_lru (k_store k))).
  pose proof (sinv_heap _ _ (x_heap x) Hs) as Hs1. fold s1 in Hs1.
  rewrite (append_refs_ok (k_cfg k) s1 Hc Hs1) by exact Hrefs. cbn [bind].
  destruct (cur_of_ok k gid K) as [Hso _].
  assert (Hlater : exists l, (if c_hg_adjust (k_cfg k) then mapm (fun i => let* (e, _) := lookup_idx s1 i in Ok (e, i)) cur else Ok []) = Ok l).
  { destruct (c_hg_adjust (k_cfg k)); [|eauto]. apply mapm_ok. intros i Hi. rewrite Forall_forall in Hcur.
    destruct (lookup_kvof _ s1 i Hc Hs1 (Hcur i Hi)) as (e & Ee & _). rewrite Ee. cbn [bind]. eauto. }
  destruct Hlater as (l & El). rewrite El. cbn [bind].
  assert (Y : yinv (live s1) (mk_y s1 (find_or_make (k_groups k) gid) None)). { split; [cbn; apply gall_find; exact Hg|discriminate]. }
  destruct (yset_inv _ gid _ cur Y) as [Y1 E1]; [now apply zsymdiff_sorted|intros _; exact Hcur|]. cbn [y_store] in E1.
  destruct (store_loop_ok (k_cfg k) gid (x_later x) _ Hc ltac:(rewrite E1; exact Hs1) ltac:(rewrite E1; exact Y1)) as (y2 & E2 & S2 & _ & Y2). rewrite E2. cbn [bind].
  destruct (adjust_loop_ok (k_cfg k) gid l _ Hc S2 Y2) as (y3 & E3 & S3 & _ & Y3). rewrite E3. cbn [bind].
  eexists. split; [|split].
  - rewrite fold_left_app. reflexivity.
  - split; cbn; auto. apply Y3.
  - reflexivity.
Qed.

(** The state afterwards does not depend on the order of references. *)
Lemma execute_order r1 r2 k ops gid k1 h1 k2 h2 : execute_ops r1 k ops gid = Ok (k1, h1) -> execute_ops r2 k ops gid = Ok (k2, h2) -> k1 = k2.
Proof.
  unfold execute_ops. cbv zeta. destruct (lru_to_hg_ops _ _ _) as [ops'|]; [|discriminate]. cbn [bind].
  destruct (exec_loop _ _ _) as [x|]; [|discriminate]. cbn [bind].
  destruct (append_refs _ _ (r1 _)) as [d1|]; [|discriminate]. destruct (append_refs _ _ (r2 _)) as [d2|]; [|discriminate]. cbn [bind].
  destruct (if c_hg_adjust (k_cfg k) then _ else _) as [l|]; [|discriminate]. cbn [bind].
  destruct (store_loop _ _ _ _) as [y|]; [|discriminate]. cbn [bind]. destruct (adjust_loop _ _ _ _) as [y'|]; [|discriminate]. cbn [bind].
  congruence.
Qed.
Lemma execute_find ref c s g ops gid : execute_ops ref (mk_code c s (find_or_make g gid)) ops gid = execute_ops ref (mk_code c s g) ops gid.
Proof. unfold execute_ops. cbn [k_groups k_cfg k_store]. now rewrite find_or_make_idem. Qed.

(** ** The headers that are put together *)

Definition no_nul (s : str) : Prop := ~ In 0%N s.

Definition vals_of (l : list (str * str)) (k : str) : list str := map snd (filter (fun p => str_eqb (fst p) k) l).

Lemma vals_of_app a b k : vals_of (a ++ b) k = vals_of a k ++ vals_of b k.
Proof. unfold vals_of. now rewrite filter_app, map_app. Qed.

Lemma app2_get l : forall h, is_dict h -> is_dict (fold_left app2 l h) /\
  forall k, dget (fold_left app2 l h) k =
    match (match dget h k with Some v => [v] | None => [] end) ++ vals_of l k with [] => None | vs => Some (join [0%N] vs) end.
Proof.
  induction l as [|[k0 v0] l IH] using rev_ind; intros h Hd; cbn [fold_left].
  { split; [exact Hd|]. intros k. cbn. destruct (dget h k); reflexivity. }
  rewrite fold_left_app. cbn [fold_left]. destruct (IH h Hd) as [D G]. set (h1 := fold_left app2 l h) in *.
  assert (D1 : forall v, is_dict (dset h1 k0 v)) by (intros v; now apply is_dict_dset).
  split; [unfold app2, append_to_headers; cbn [fst snd]; destruct (dget h1 k0); apply D1|].
  intros k. rewrite vals_of_app, app_assoc. specialize (G k). unfold vals_of at 2. cbn [filter fst].
  unfold app2, append_to_headers. cbn [fst snd].
  destruct (str_eqb_spec k0 k) as [->|N].
  - cbn [map snd]. set (vs := (match dget h k with Some v => [v] | None => [] end) ++ vals_of l k) in *. rewrite G.
    destruct vs as [|a vs']; rewrite dget_dset, str_eqb_refl; [reflexivity|]. cbn [app]. f_equal.
    clear. revert a. induction vs' as [|b vs IH]; intros a; [reflexivity|].
    change ((a :: b :: vs) ++ [v0]) with (a :: (b :: vs) ++ [v0]). cbn [join app]. cbn [app] in IH. rewrite <- app_assoc. cbn [app]. do 2 f_equal. exact (IH b).
  - cbn [map]. rewrite app_nil_r. destruct (dget h1 k0); rewrite dget_dset; destruct (str_eqb_spec k k0); try congruence; exact G.
Qed.
