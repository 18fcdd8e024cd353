(** * One message of delta v1: what is sent, and what executing it does. *)
From Coq Require Import String List NArith ZArith Bool Arith Lia Permutation Sorted.
From Verif Require Import PyBase PyStr Lib_Model Lib_Proofs D2Store_Model D2Code_Model D2Code_Sets D2Code_Exec D2Code_Make D2Code_Round D1Wire_Model D1Code_Model D1Code_Inv D1Code_Store.
Import ListNotations.
Open Scope Z_scope.
Open Scope py_scope.

Lemma do_toggles_app gid a : forall c b, do_toggles c gid (a ++ b) = let* c := do_toggles c gid a in do_toggles c gid b.
Proof. induction a as [|i a IH]; intros c b; cbn [do_toggles app]; [reflexivity|]. destruct (do_toggle c gid i); cbn [bind]; [apply IH|reflexivity]. Qed.

Definition is_toggle (o : op1) : Prop := match o with Toggl _ | Trang _ _ => True | _ => False end.

Lemma exec_toggles gid tops : Forall is_toggle tops -> forall c hd later rest,
  exec_ops1 c gid hd later (tops ++ rest) = let* c := do_toggles c gid (flat_map toggled tops) in exec_ops1 c gid hd later rest.
Proof.
  induction 1 as [|o tops Ho Ht IH]; intros c hd later rest; [reflexivity|]. cbn [app flat_map]. rewrite do_toggles_app.
  destruct o as [i|i s|i v|k v|k v]; try contradiction; cbn [exec_ops1 toggled].
  - cbn [do_toggles]. destruct (do_toggle c gid i); cbn [bind]; [apply IH|reflexivity].
  - destruct (do_toggles c gid (xrange s (i + 1))); cbn [bind]; [apply IH|reflexivity].
Qed.

Definition lit_ops (cl : list (Z * str)) (kv er : list (str * str)) : list op1 :=
  map (fun '(k, v) => Clone k v) cl ++ map (fun '(k, v) => Kvsto k v) kv ++ map (fun '(k, v) => Eref k v) er.

Definition clone_pair (t : store1) (p : Z * str) : str * str := (match find_kidx (t_kidx t) (fst p) with Some k => k | None => [] end, snd p).
Definition known (t : store1) (p : Z * str) : Prop := find_kidx (t_kidx t) (fst p) <> None.

Lemma exec_lits gid c cl kv er : Forall (known (d_store c)) cl -> forall hd later,
  exec_ops1 c gid hd later (lit_ops cl kv er) =
  Ok (c, fold_left app2 (map (clone_pair (d_store c)) cl ++ kv ++ er) hd, later ++ map (clone_pair (d_store c)) cl ++ kv).
Proof.
  unfold lit_ops. intros H. induction H as [|[i v] cl Hk Hc IH]; intros hd later; cbn [map app].
  - revert hd later. induction kv as [|[k v] kv IH]; intros hd later; cbn [map app].
    + rewrite app_nil_r. revert hd. induction er as [|[k v] er IH]; intros hd; cbn [map exec_ops1 fold_left]; [reflexivity|]. apply IH.
    + cbn [exec_ops1 fold_left]. rewrite IH, <- app_assoc. reflexivity.
  - cbn [exec_ops1]. unfold known in Hk. cbn [fst] in Hk. unfold clone_pair at 1 3. cbn [fst snd]. destruct (find_kidx (t_kidx (d_store c)) i) as [k|] eqn:E; [|congruence].
    rewrite IH. cbn [fold_left app2 fst snd]. rewrite <- app_assoc. reflexivity.
Qed.

Lemma toggle_set_ok ops : zsorted (toggle_set ops) /\ forall i, In i (toggle_set ops) <-> In i (flat_map toggled ops).
Proof.
  unfold toggle_set. set (l := flat_map toggled ops). assert (G : forall s, zsorted s -> zsorted (fold_left (fun s i => zadd i s) l s) /\ forall i, In i (fold_left (fun s i => zadd i s) l s) <-> In i s \/ In i l).
  { induction l as [|a l IH]; intros s Hs; cbn [fold_left]; [split; [exact Hs|cbn; tauto]|]. destruct (IH (zadd a s) (zadd_sorted a s Hs)) as [A B]. split; [exact A|].
    intros i. rewrite B, zadd_In. cbn. intuition. }
  destruct (G [] ltac:(constructor)) as [A B]. split; [exact A|]. intros i. rewrite B. cbn. tauto.
Qed.
Lemma toggled_lits cl kv er : flat_map toggled (lit_ops cl kv er) = [].
Proof.
  unfold lit_ops. rewrite !flat_map_app.
  assert (A : flat_map toggled (map (fun '(k, v) => Clone k v) cl) = []) by (induction cl as [|[] ? IH]; [reflexivity|exact IH]).
  assert (B : flat_map toggled (map (fun '(k, v) => Kvsto k v) kv) = []) by (induction kv as [|[] ? IH]; [reflexivity|exact IH]).
  assert (C : flat_map toggled (map (fun '(k, v) => Eref k v) er) = []) by (induction er as [|[] ? IH]; [reflexivity|exact IH]).
  now rewrite A, B, C.
Qed.

(** The pair an index stands for. *)
Definition kv1 (l : list ve) (i : Z) : str * str := match find_idx l i with Some e => pair_of e | None => ([], []) end.

Section Exec.
Context (dk : str).

Lemma kv1_look c i : inv1 dk c -> live1 c i -> exists e, look (t_lru (d_store c)) i = Ok e /\ kv1 (t_lru (d_store c)) i = pair_of e /\ In e (t_lru (d_store c)) /\ v_idx e = i.
Proof.
  intros [T _] (e & He & <-). exists e. unfold look, kv1. now rewrite (find_idx_in _ _ (ti_ids _ _ T) He).
Qed.
Lemma kv1_inj c i j : inv1 dk c -> live1 c i -> live1 c j -> kv1 (t_lru (d_store c)) i = kv1 (t_lru (d_store c)) j -> i = j.
Proof.
  intros I Hi Hj E. destruct (kv1_look c i I Hi) as (a & _ & Ea & Ia & <-). destruct (kv1_look c j I Hj) as (b & _ & Eb & Ib & <-). f_equal.
  apply (nodup_map_eq pair_of _ _ _ (ti_pairs _ _ (in_t _ _ I)) Ia Ib). congruence.
Qed.

Lemma append_on_ok c idxs : inv1 dk c -> Forall (live1 c) idxs -> forall hd, append_on (t_lru (d_store c)) hd idxs = Ok (fold_left app2 (map (kv1 (t_lru (d_store c))) idxs) hd).
Proof.
  intros I. induction 1 as [|i r Hi Hr IH]; intros hd; cbn [append_on]; [reflexivity|]. destruct (kv1_look c i I Hi) as (e & E & Ek & _). rewrite E. cbn [bind map fold_left].
  rewrite IH, Ek. reflexivity.
Qed.

Lemma execute1_ok ord c tops cl kv er gid z c1 : inv1 dk c -> gget (d_groups c) gid = Some z ->
  Forall is_toggle tops -> NoDup (flat_map toggled tops) -> Forall (live1 c) (flat_map toggled tops) -> Forall (known (d_store c)) cl ->
  (forall s, Permutation (ord s) s) -> do_toggles c gid (flat_map toggled tops) = Ok c1 ->
  execute1 dk ord c (tops ++ lit_ops cl kv er) gid =
  let* c2 := store_pairs dk gid c1 (map (clone_pair (d_store c)) cl ++ kv) in
  Ok (c2, cookie_nul (fold_left app2 (map (kv1 (t_lru (d_store c))) (ord (zsymdiff z (flat_map toggled tops))) ++ map (clone_pair (d_store c)) cl ++ kv ++ er) [])).
Proof.
  intros I Hg Ht Hn Hl Hc Ho Ed. unfold execute1. cbv zeta. assert (Ef : find_or_make (d_groups c) gid = d_groups c) by (unfold find_or_make; now rewrite Hg).
  rewrite Ef. assert (Ec : mk_code1 (d_store c) (d_groups c) = c) by (now destruct c). rewrite Ec. cbn [d_store].
  unfold cur_of. rewrite Hg. pose proof (sy_sorted _ _ (in_g _ _ I) gid z Hg) as Hz.
  assert (Et : zsymdiff (toggle_set (tops ++ lit_ops cl kv er)) z = zsymdiff z (flat_map toggled tops)).
  { destruct (toggle_set_ok (tops ++ lit_ops cl kv er)) as [A B]. apply zsorted_ext; [now apply zsymdiff_sorted..|]. intros i.
    rewrite (zsymdiff_In _ z) by (now apply zsorted_NoDup). rewrite zsymdiff_In by exact Hn. rewrite B, flat_map_app, toggled_lits, app_nil_r. tauto. }
  rewrite Et. set (on := zsymdiff z (flat_map toggled tops)).
  assert (Lon : Forall (live1 c) (ord on)).
  { eapply Permutation_Forall; [symmetry; apply Ho|]. apply Forall_forall. intros i Hi. unfold on in Hi. apply zsymdiff_In in Hi; [|exact Hn].
    destruct Hi as [[Hi _]|[_ Hi]]; [|rewrite Forall_forall in Hl; auto]. apply (sy_in _ _ (in_g _ _ I) gid z Hg) in Hi as (e & He & Hi & _). exists e. auto. }
  rewrite (append_on_ok c _ I Lon). cbn [bind]. rewrite (exec_toggles gid tops Ht), Ed. cbn [bind].
  destruct (do_toggles_ok dk gid (flat_map toggled tops) c z I Hg Hl) as (c1' & Ed' & I1 & SB & G1). assert (c1' = c1) by congruence. subst c1'.
  assert (Ek : t_kidx (d_store c1) = t_kidx (d_store c)) by apply SB.
  assert (Ecp : map (clone_pair (d_store c1)) cl = map (clone_pair (d_store c)) cl) by (apply map_ext; intros p; unfold clone_pair; now rewrite Ek).
  rewrite exec_lits by (eapply Forall_impl; [|exact Hc]; intros p Hp; unfold known; now rewrite Ek). cbn [bind app]. rewrite Ecp, <- fold_left_app. reflexivity.
Qed.

(** ** Making the operations *)

Section Make.
Context (c : code1) (I : inv1 dk c).
Local Notation l := (t_lru (d_store c)).

Lemma keep1_ok : forall idxs hs done, NoDup idxs -> Forall (live1 c) idxs -> NoDup hs -> zsorted done ->
  exists hs' done' kept, keep_loop1 l idxs hs done = Ok (hs', done') /\ zsorted done' /\
  incl kept idxs /\ (forall i, In i done' <-> In i done \/ (In i idxs /\ ~ In i kept)) /\
  Permutation hs (map (kv1 l) kept ++ hs') /\ forall i, In i idxs -> ~ In (kv1 l i) hs'.
Proof.
  induction idxs as [|i r IH]; intros hs done Hn Hl Hh Hd; cbn [keep_loop1].
  { exists hs, done, []. split; [reflexivity|]. split; [exact Hd|]. split; [apply incl_refl|]. split; [cbn; tauto|]. split; [reflexivity|contradiction]. }
  inversion Hn as [|? ? N1 N2]; inversion Hl as [|? ? L1 L2]; subst. destruct (kv1_look c i I L1) as (e & Ee & Ek & _). rewrite Ee. cbn [bind]. cbv zeta.
  change (v_key e, v_val e) with (pair_of e). rewrite <- Ek. destruct (mem_pair (kv1 l i) hs) eqn:Em.
  - apply mem_pair_true in Em. pose proof (remove_pair_perm _ _ Hh Em) as P.
    assert (Hh' : NoDup (kv1 l i :: remove_pair (kv1 l i) hs)) by (eapply Permutation_NoDup; eauto). inversion Hh' as [|? ? M1 M2]; subst.
    destruct (IH (remove_pair (kv1 l i) hs) done N2 L2 M2 Hd) as (hs' & done' & kept & E & Z1 & Z2 & Z3 & Z4 & Z5).
    exists hs', done', (i :: kept). split; [exact E|]. split; [exact Z1|]. split; [intros x [<-|Hx]; [now left|right; now apply Z2]|]. split; [|split].
    + intros x. rewrite Z3. cbn. split.
      * intros [H|[H1 H2]]; [now left|]. right. split; [now right|]. intros [->|C]; auto.
      * intros [H|[[->|H1] H2]]; [now left| |]; [exfalso; apply H2; now left|]. right. split; [exact H1|tauto].
    + cbn [map app]. rewrite P. now apply perm_skip.
    + intros x [<-|Hx]; [|now apply Z5]. intros C. apply M1. eapply Permutation_in; [symmetry; exact Z4|]. apply in_or_app. now right.
  - assert (Hd' : zsorted (zadd i done)) by (now apply zadd_sorted).
    destruct (IH hs (zadd i done) N2 L2 Hh Hd') as (hs' & done' & kept & E & Z1 & Z2 & Z3 & Z4 & Z5).
    exists hs', done', kept. split; [exact E|]. split; [exact Z1|]. split; [intros x Hx; right; now apply Z2|]. split; [|split].
    + intros x. rewrite Z3, zadd_In. cbn. split.
      * intros [[->|H]|[H1 H2]]; [right; split; [now left|intros C; apply N1; now apply Z2]|now left|right; split; [now right|exact H2]].
      * intros [H|[[->|H1] H2]]; auto.
    + exact Z4.
    + intros x [<-|Hx]; [|now apply Z5]. intros C. assert (In (kv1 l i) hs) by (eapply Permutation_in; [symmetry; exact Z4|]; apply in_or_app; now right).
      apply mem_pair_true in H. congruence.
Qed.

(** Names whose values are stored. *)
Definition stored_name (k : str) : Prop := k <> lit ":path" /\ k <> lit "referer".

Record mrel1 (P : list (str * str)) (m : mstate1) : Prop := {
  mq_perm : Permutation P (map (kv1 l) (m1_tog m) ++ map (clone_pair (d_store c)) (m1_clone m) ++ m1_kvsto m ++ m1_eref m);
  mq_sorted : zsorted (m1_tog m);
  mq_live : Forall (live1 c) (m1_tog m);
  mq_known : Forall (fun p => known (d_store c) p /\ 0 <= fst p < 2 ^ 16) (m1_clone m);
  mq_stored : Forall (fun p => stored_name (fst p)) (map (clone_pair (d_store c)) (m1_clone m) ++ m1_kvsto m) }.

Lemma make_op1_ok P m p : fst p <> dk -> NoDup (P ++ [p]) -> mrel1 P m -> mrel1 (P ++ [p]) (make_op1 (d_store c) m p).
Proof.
  intros Hk Hn [H1 H2 H3 H4 H5]. destruct p as [key val]. cbn [fst] in Hk. unfold make_op1.
  assert (PP : Permutation (P ++ [(key, val)]) ((key, val) :: P)) by (symmetry; apply Permutation_cons_append).
  destruct (str_eqb key (lit ":path") || str_eqb key (lit "referer")) eqn:En.
  { split; cbn [m1_tog m1_clone m1_kvsto m1_eref]; auto. rewrite PP, H1, !app_assoc. rewrite <- Permutation_cons_append. reflexivity. }
  assert (Sn : stored_name key).
  { apply orb_false_iff in En as [N1 N2]. split; intros C; rewrite C, str_eqb_refl in *; discriminate. }
  apply Forall_app in H5 as [H5 H6].
  destruct (find_key (t_keys (d_store c)) key) as [k|] eqn:Ek.
  - destruct (find_val l key val) as [e|] eqn:Ev.
    + apply find_val_some in Ev as [He Ev].
      assert (Kv : kv1 l (v_idx e) = (key, val)). { unfold kv1. now rewrite (find_idx_in _ _ (ti_ids _ _ (in_t _ _ I)) He). }
      assert (Nv : ~ In (v_idx e) (m1_tog m)).
      { intros C. apply NoDup_remove_2 in Hn. rewrite app_nil_r in Hn. apply Hn. eapply Permutation_in; [symmetry; exact H1|].
        apply in_or_app. left. rewrite <- Kv. now apply in_map. }
      split; cbn [m1_tog m1_clone m1_kvsto m1_eref]; auto.
      * rewrite PP, H1, (zadd_perm _ _ Nv). cbn [app map]. now rewrite Kv.
      * now apply zadd_sorted.
      * rewrite Forall_forall in *. intros x Hx. apply zadd_In in Hx as [->|Hx]; [exists e; auto|auto].
      * now apply Forall_app.
    + pose proof (ti_kidx _ _ (in_t _ _ I) key k Ek Hk) as Ei. pose proof (ti_krange _ _ (in_t _ _ I) key k Ek) as Rk.
      split; cbn [m1_tog m1_clone m1_kvsto m1_eref]; auto.
      * rewrite PP, H1, map_app. cbn [map]. unfold clone_pair at 3. cbn [fst snd]. rewrite Ei. rewrite <- !app_assoc. cbn [app].
        rewrite (app_assoc (map (kv1 l) (m1_tog m)) _ ((key, val) :: _)). rewrite <- Permutation_middle. rewrite <- !app_assoc. reflexivity.
      * apply Forall_app. split; [exact H4|]. constructor; [|constructor]. unfold known. cbn [fst]. rewrite Ei. split; [discriminate|exact Rk].
      * apply Forall_app. split; [|exact H6]. rewrite map_app. apply Forall_app. split; [exact H5|]. cbn [map]. constructor; [|constructor]. unfold clone_pair. cbn [fst]. now rewrite Ei.
  - split; cbn [m1_tog m1_clone m1_kvsto m1_eref]; auto; [rewrite PP, H1|]; rewrite <- ?app_assoc; cbn [app].
    + rewrite !(app_assoc _ _ ((key, val) :: _)). rewrite <- Permutation_middle. rewrite <- !app_assoc. reflexivity.
    + apply Forall_app. split; [exact H5|]. apply Forall_app. split; [exact H6|]. constructor; [exact Sn|constructor].
Qed.

Lemma make_fold1_ok hs : NoDup hs -> (forall p, In p hs -> fst p <> dk) -> mrel1 hs (fold_left (make_op1 (d_store c)) hs (mk_m1 [] [] [] [])).
Proof.
  induction hs as [|p hs IH] using rev_ind; intros Hn Hd; [split; cbn; constructor|]. rewrite fold_left_app. cbn [fold_left].
  apply make_op1_ok; [apply Hd; apply in_or_app; right; now left|exact Hn|]. apply IH.
  - apply NoDup_remove_1 in Hn. now rewrite app_nil_r in Hn.
  - intros q Hq. apply Hd. apply in_or_app. now left.
Qed.

End Make.

(** ** One message *)

Record order1_ok (o : order1) : Prop := {
  o1_group : forall s, Permutation (r1_group o s) s;
  o1_headers : forall s, Permutation (r1_headers o s) s;
  o1_toggl : forall s, Permutation (r1_toggl o s) s;
  o1_on : forall s, Permutation (r1_on o s) s }.

Lemma inv1_find c gid : inv1 dk c -> inv1 dk (mk_code1 (d_store c) (find_or_make (d_groups c) gid)).
Proof. intros [T G]. split; [exact T|]. cbn [d_store d_groups]. now apply sync_find. Qed.

Lemma group_live c gid z : inv1 dk c -> gget (d_groups c) gid = Some z -> Forall (live1 c) z.
Proof. intros I Hg. apply Forall_forall. intros i Hi. apply (sy_in _ _ (in_g _ _ I) gid z Hg) in Hi as (e & He & Hi & _). exists e. auto. Qed.

(** What one message looks like, in a code whose group exists. *)
Record plan (c : code1) (z : zset) (hs : list (str * str)) (i : instr) (on : zset) (later : list (str * str)) : Prop := {
  pl_nodup : NoDup (i_toggl i);
  pl_live : Forall (live1 c) (i_toggl i);
  pl_count : (length (i_toggl i) <= length z + length hs)%nat;
  pl_known : Forall (fun p => known (d_store c) p /\ 0 <= fst p < 2 ^ 16) (i_clone i);
  pl_on : on = zsymdiff z (i_toggl i);
  pl_later : later = map (clone_pair (d_store c)) (i_clone i) ++ i_kvsto i;
  pl_stored : Forall (fun p => stored_name (fst p)) later;
  pl_all : Permutation hs (map (kv1 (t_lru (d_store c))) on ++ later ++ i_eref i) }.

Lemma plan_lengths c z hs i on later : plan c z hs i on later ->
  (length on + length later <= length hs /\ length (i_clone i) <= length hs /\ length (i_kvsto i) <= length hs /\ length (i_eref i) <= length hs)%nat.
Proof.
  intros [_ _ _ _ _ El _ H]. apply Permutation_length in H. rewrite !app_length, map_length in H. rewrite El in *. rewrite app_length, map_length in *. lia.
Qed.

Lemma make1_ok iter o c d gid z : inv1 dk c -> gget (d_groups c) gid = Some z -> order1_ok o -> (forall v, ~ In (dk, v) d) ->
  exists i on later c1, plan c z (headers_set d) i on later /\ do_toggles c gid (i_toggl i) = Ok c1 /\ inv1 dk c1 /\
  same_but_hist (d_store c) (d_store c1) /\ d_groups c1 = gset (d_groups c) gid on /\
  make_operations1 dk iter o c d gid = (let* c2 := store_pairs dk gid c1 later in let* c3 := adjust1 iter c2 gid in Ok (c3, i)).
Proof.
  intros I Hg [O1 O2 O3 O4] Hdk. unfold make_operations1. cbv zeta.
  assert (Ef : find_or_make (d_groups c) gid = d_groups c) by (unfold find_or_make; now rewrite Hg).
  rewrite Ef. assert (Ec : mk_code1 (d_store c) (d_groups c) = c) by (now destruct c). rewrite Ec.
  unfold cur_of. rewrite Hg. pose proof (sy_sorted _ _ (in_g _ _ I) gid z Hg) as Hz. pose proof (zsorted_NoDup _ Hz) as Nz. pose proof (group_live c gid z I Hg) as Lz.
  destruct (headers_set_ok d) as [Hn Hin].
  destruct (keep1_ok c I (r1_group o z) (headers_set d) []) as (hs & done & kept & E & Z1 & Z2 & Z3 & Z4 & Z5).
  { eapply Permutation_NoDup; [symmetry; apply O1|exact Nz]. }
  { eapply Permutation_Forall; [symmetry; apply O1|exact Lz]. }
  { exact Hn. }
  { constructor. }
  rewrite E. cbn [bind]. set (l := t_lru (d_store c)) in *.
  assert (Nall : NoDup (map (kv1 l) kept ++ hs)) by (eapply Permutation_NoDup; [exact Z4|exact Hn]).
  assert (Nhs : NoDup (r1_headers o hs)) by (eapply Permutation_NoDup; [symmetry; apply O2|]; now apply NoDup_app_r in Nall).
  assert (Dhs : forall p, In p (r1_headers o hs) -> fst p <> dk).
  { intros [k v] Hp C. cbn [fst] in C. subst k. apply (Permutation_in _ (O2 hs)) in Hp. assert (Hp' : In (dk, v) (headers_set d)) by (eapply Permutation_in; [symmetry; exact Z4|]; apply in_or_app; now right).
    apply Hin, all_pairs_in in Hp' as (w & Hw & _). exact (Hdk w Hw). }
  pose proof (make_fold1_ok c I (r1_headers o hs) Nhs Dhs) as M. set (m := fold_left _ _ _) in *. destruct M as [M1 M2 M3 M4 M5]. fold l in M1. rewrite (O2 hs) in M1.
  set (u := zunion (m1_tog m) done). set (i := mk_instr (r1_toggl o u) (m1_clone m) (m1_kvsto m) (m1_eref m)).
  assert (Hall : Permutation (headers_set d) (map (kv1 l) (kept ++ m1_tog m) ++ (map (clone_pair (d_store c)) (m1_clone m) ++ m1_kvsto m) ++ m1_eref m)).
  { rewrite Z4, M1, !map_app, <- !app_assoc. reflexivity. }
  assert (Nkv : NoDup (kept ++ m1_tog m)).
  { apply (NoDup_map_inv (kv1 l)). eapply NoDup_app_l. eapply Permutation_NoDup; [exact Hall|exact Hn]. }
  assert (Hdone : forall x, In x done <-> In x z /\ ~ In x kept).
  { intros x. rewrite Z3. cbn. split; [intros [[]|[A B]]|intros [A B]; right]; (split; [|exact B]); [eapply Permutation_in; [apply O1|exact A]|eapply Permutation_in; [symmetry; apply O1|exact A]]. }
  assert (Hkept : forall x, In x kept -> In x z) by (intros x Hx; eapply Permutation_in; [apply O1|]; now apply Z2).
  assert (Htog : forall x, In x (m1_tog m) -> ~ In x z).
  { intros x Hx C. apply (Z5 x); [eapply Permutation_in; [symmetry; apply O1|exact C]|]. eapply Permutation_in; [symmetry; exact M1|]. apply in_or_app. left. now apply in_map. }
  assert (Su : zsorted u) by (now apply zunion_sorted). pose proof (zsorted_NoDup _ Su) as Nu.
  assert (Hu : forall x, In x u <-> In x (m1_tog m) \/ In x done) by (intros x; apply zunion_In).
  assert (Lu : Forall (live1 c) u).
  { apply Forall_forall. intros x Hx. rewrite Forall_forall in M3, Lz. apply Hu in Hx as [Hx|Hx]; [auto|]. apply Hdone in Hx as [Hx _]. auto. }
  assert (Nt : NoDup (r1_toggl o u)) by (eapply Permutation_NoDup; [symmetry; apply O3|exact Nu]).
  assert (Lt : Forall (live1 c) (r1_toggl o u)) by (eapply Permutation_Forall; [symmetry; apply O3|exact Lu]).
  assert (It : forall x, In x (r1_toggl o u) <-> In x u) by (intros x; split; apply Permutation_in; [|symmetry]; apply O3).
  set (on := zsymdiff z (r1_toggl o u)).
  assert (Hon : Permutation on (kept ++ m1_tog m)).
  { apply NoDup_Permutation; [apply zsorted_NoDup; now apply zsymdiff_sorted|exact Nkv|]. intros x. unfold on.
    rewrite zsymdiff_In by exact Nt. rewrite It, Hu, Hdone, in_app_iff. split.
    - intros [[A B]|[A [B|[B _]]]]; [|now right|contradiction]. left. destruct (in_dec Z.eq_dec x kept); [assumption|]. exfalso. apply B. right. auto.
    - intros [A|A].
      + left. split; [now apply Hkept|]. intros [C|[_ C]]; [|contradiction]. apply (Htog x); [exact C|now apply Hkept].
      + right. split; [now apply Htog|now left]. }
  destruct (do_toggles_ok dk gid (r1_toggl o u) c z I Hg Lt) as (c1 & Ed & I1 & SB & G1). fold on in G1.
  exists i, on, (map (clone_pair (d_store c)) (m1_clone m) ++ m1_kvsto m), c1.
  assert (PL : plan c z (headers_set d) i on (map (clone_pair (d_store c)) (m1_clone m) ++ m1_kvsto m)).
  { split; cbn [i i_toggl i_clone i_kvsto i_eref]; auto.
    - rewrite (Permutation_length (O3 u)). unfold u. 
      assert (Iu : incl u (m1_tog m ++ done)) by (intros x Hx; apply in_or_app; now apply Hu).
      apply NoDup_incl_length in Iu; [|exact Nu]. rewrite app_length in Iu. unfold u in Iu.
      assert (Id : incl done z) by (intros x Hx; now apply Hdone in Hx). apply NoDup_incl_length in Id; [|now apply zsorted_NoDup].
      apply Permutation_length in Hall. rewrite !app_length, !map_length, !app_length in Hall. lia.
    - fold l. rewrite Hall, (Permutation_map (kv1 l) Hon). reflexivity. }
  split; [exact PL|]. split; [exact Ed|]. split; [exact I1|]. split; [exact SB|]. split; [exact G1|].
  assert (Ei : instr_ops i = map Toggl (r1_toggl o u) ++ lit_ops (m1_clone m) (m1_kvsto m) (m1_eref m)) by reflexivity. rewrite Ei.
  assert (Em : flat_map toggled (map Toggl (r1_toggl o u)) = r1_toggl o u) by (clear; induction (r1_toggl o u) as [|a r IH]; cbn; congruence).
  rewrite (execute1_ok (r1_on o) c (map Toggl (r1_toggl o u)) (m1_clone m) (m1_kvsto m) (m1_eref m) gid z c1 I Hg); rewrite ?Em; auto.
  - match goal with |- context [store_pairs ?a ?b ?x ?y] => destruct (store_pairs a b x y) end; cbn [bind]; reflexivity.
  - apply Forall_map. apply Forall_forall. intros; exact Logic.I.
  - eapply Forall_impl; [|exact M4]. intros p [H _]; exact H.
Qed.

Lemma plan_exec ord c z d i on later c1 gid tops : inv1 dk c -> gget (d_groups c) gid = Some z -> plan c z (headers_set d) i on later ->
  do_toggles c gid (i_toggl i) = Ok c1 -> Forall is_toggle tops -> Permutation (flat_map toggled tops) (i_toggl i) -> (forall s, Permutation (ord s) s) ->
  exists L, Permutation L (headers_set d) /\
  execute1 dk ord c (tops ++ lit_ops (i_clone i) (i_kvsto i) (i_eref i)) gid = let* c2 := store_pairs dk gid c1 later in Ok (c2, cookie_nul (fold_left app2 L [])).
Proof.
  intros I Hg [P1 P2 P3 P4 P5 P6 _ P7] Ed Ht Hp Ho.
  assert (Nt : NoDup (flat_map toggled tops)) by (eapply Permutation_NoDup; [symmetry; exact Hp|exact P1]).
  assert (Lt : Forall (live1 c) (flat_map toggled tops)) by (eapply Permutation_Forall; [symmetry; exact Hp|exact P2]).
  assert (Ed' : do_toggles c gid (flat_map toggled tops) = Ok c1) by (rewrite (do_toggles_perm dk gid _ _ Hp c z I Hg Lt); exact Ed).
  assert (Kn : Forall (known (d_store c)) (i_clone i)) by (eapply Forall_impl; [|exact P4]; intros p [H _]; exact H).
  rewrite (execute1_ok ord c tops (i_clone i) (i_kvsto i) (i_eref i) gid z c1 I Hg Ht Nt Lt Kn Ho Ed').
  eexists. split; [|rewrite <- P6; reflexivity]. rewrite P7, P6, P5, <- !app_assoc. apply Permutation_app; [|reflexivity]. rewrite (Ho _).
  apply Permutation_map. pose proof (sy_sorted _ _ (in_g _ _ I) gid z Hg) as Hz. replace (zsymdiff z (flat_map toggled tops)) with (zsymdiff z (i_toggl i)); [reflexivity|].
  apply zsorted_ext; [now apply zsymdiff_sorted..|]. intros x. rewrite !zsymdiff_In by assumption.
  assert (Ix : In x (flat_map toggled tops) <-> In x (i_toggl i)) by (split; apply Permutation_in; [|symmetry]; exact Hp). rewrite Ix. reflexivity.
Qed.

End Exec.
