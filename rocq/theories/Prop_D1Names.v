(** * Property C93: how the decoder of delta (v1) numbers names, and its count of octets.

    Whatever messages arrive, a name is numbered when a store operation brings
    it first, the numbers are 2, 3, 4 ... in that order, and they are kept even
    when every value of the name is gone from the table.  The two ends of a
    session agree (C52), so the compressor numbers names in the same way. *)
From Coq Require Import String List NArith ZArith Bool Arith Lia Permutation.
From Verif Require Import PyBase PyStr Lib_Model Lib_Spec Lib_Proofs Small_Model D2Huff_Model D2Store_Model D2Code_Model D2Code_Sets D2Code_Exec D2Code_Round D2Code_Says Prop_D2Code
  D1Huff_Model D1Wire_Model Prop_D1Wire D1Code_Model D1Code_Inv D1Code_Store D1Code_Exec D1Code_Round Prop_D1Code.
Import ListNotations.
Open Scope Z_scope.
Open Scope py_scope.

(** ** Specification *)

(** The names learnt from the operations of a message: those of the store
    operations, each at its first occurrence.  [dk] is not learnt, see C53. *)
Fixpoint learn (dk : str) (names : list str) (ops : list op1) : list str :=
  match ops with
  | Kvsto k _ :: r => learn dk (if in_dec str_eq_dec k (dk :: names) then names else names ++ [k]) r
  | _ :: r => learn dk names r
  | [] => names
  end.

(** A decoder that has decoded some messages, made by anybody, and the names it
    has learnt. *)
Inductive hears (dk : str) (iter : list gop -> list N) (h : huffman) (maxb maxv : Z) : code1 -> list str -> Prop :=
| hears_nothing : hears dk iter h maxb maxv (code1_new dk maxb maxv) []
| hears_message d names ord blob gid ops d' out : hears dk iter h maxb maxv d names ->
    from_wire1 h blob = Ok (gid, ops) -> decompress1 dk iter h ord d blob = Ok (d', out) ->
    hears dk iter h maxb maxv d' (learn dk names ops).

(** The place of a name: the first learnt has the number 2. *)
Definition numbered (names : list str) (i : Z) (k : str) : Prop := 2 <= i /\ nth_error names (Z.to_nat (i - 2)) = Some k.

(** ** What does not touch the numbering *)

Definition kn (c : code1) := (t_keys (d_store c), t_kidx (d_store c), t_kid (d_store c)).

Lemma kn_pop dk pin c c' : pop_one1 dk pin c = Ok (Some c') -> kn c' = kn c.
Proof.
  unfold pop_one1. destruct (t_lru (d_store c)) as [|e r]; [discriminate|].
  destruct (remove_idx _ _ _); cbn [bind]; [|discriminate]. intros E. injection E as <-. reflexivity.
Qed.
Lemma kn_loop dk pin adding fuel : forall c c' b, space_loop fuel dk pin adding c = Ok (c', b) -> kn c' = kn c.
Proof.
  induction fuel as [|f IH]; intros c c' b; cbn [space_loop]; (destruct (_ <? _); [|intros E; injection E as <- _; reflexivity]);
    (destruct (pop_one1 dk pin c) as [[c1|]|] eqn:P; cbn [bind]; [|intros E; injection E as <- _; reflexivity|discriminate]); [discriminate|].
  intros E. apply IH in E. rewrite E. now apply kn_pop in P.
Qed.
Lemma kn_space dk pin c sp adding c' : make_space dk pin c sp adding = Ok c' -> kn c' = kn c.
Proof.
  unfold make_space. destruct (space_loop _ _ _ _ _) as [[c1 b]|] eqn:E; cbn [bind]; [|discriminate].
  destruct (_ && _); [discriminate|]. intros H. injection H as <-. now apply kn_loop in E.
Qed.
Lemma kn_toggle c gid i c' : do_toggle c gid i = Ok c' -> kn c' = kn c.
Proof.
  unfold do_toggle. destruct (look _ _); cbn [bind]; [|discriminate]. destruct (gget _ _); [|discriminate]. intros E. injection E as <-. reflexivity.
Qed.
Lemma kn_toggles gid is : forall c c', do_toggles c gid is = Ok c' -> kn c' = kn c.
Proof.
  induction is as [|i r IH]; intros c c'; cbn [do_toggles]; [intros E; now injection E as <-|].
  destruct (do_toggle c gid i) as [c1|] eqn:E; cbn [bind]; [|discriminate]. intros H. apply IH in H. rewrite H. now apply kn_toggle in E.
Qed.
Lemma kn_renumber iter gid c i c' : renumber iter gid c i = Ok c' -> kn c' = kn c.
Proof.
  unfold renumber. destruct (look _ _); cbn [bind]; [|discriminate]. destruct (remove_idx _ _ _); cbn [bind]; [|discriminate].
  destruct (unused_id _ _ _); cbn [bind]; [|discriminate]. destruct (gget _ _); [|discriminate]. intros E. injection E as <-. reflexivity.
Qed.
Lemma kn_adjust iter gid c c' : adjust1 iter c gid = Ok c' -> kn c' = kn c.
Proof.
  unfold adjust1. destruct (gget _ _) as [z|]; [|discriminate]. revert c. induction z as [|i r IH]; intros c; cbn [renumber_all]; [intros E; now injection E as <-|].
  destruct (renumber iter gid c i) as [c1|] eqn:E; cbn [bind]; [|discriminate]. intros H. apply IH in H. rewrite H. now apply kn_renumber in E.
Qed.

(** ** The numbering *)

Fixpoint from (i : Z) (names : list str) : list (str * Z) :=
  match names with [] => [] | k :: r => (k, i) :: from (i + 1) r end.
Definition swap (p : str * Z) : Z * str := (snd p, fst p).
Definition in_order (dk : str) (names : list str) (c : code1) : Prop :=
  kn c = (from 1 (dk :: names), map swap (from 2 names), 1 + Z.of_nat (length names)) /\ NoDup (dk :: names).

Lemma from_app names k : forall i, from i (names ++ [k]) = from i names ++ [(k, i + Z.of_nat (length names))].
Proof.
  induction names as [|a r IH]; intros i; cbn [app from length]; [now rewrite Z.add_0_r|]. rewrite IH. do 4 f_equal. lia.
Qed.
Lemma find_from names k : forall i, find_key (from i names) k = None <-> ~ In k names.
Proof.
  induction names as [|a r IH]; intros i; cbn [from find_key In]; [tauto|]. destruct (str_eqb_spec a k) as [->|N]; [split; [discriminate|tauto]|].
  rewrite IH. tauto.
Qed.
Lemma find_from_some names k : forall i j, find_key (from i names) k = Some j -> i <= j /\ nth_error names (Z.to_nat (j - i)) = Some k.
Proof.
  induction names as [|a r IH]; intros i j; cbn [from find_key]; [discriminate|]. destruct (str_eqb_spec a k) as [->|N].
  - intros E. injection E as <-. split; [lia|]. now rewrite Z.sub_diag.
  - intros E. apply IH in E as [L E]. split; [lia|]. replace (Z.to_nat (j - i)) with (S (Z.to_nat (j - (i + 1)))) by lia. exact E.
Qed.
Lemma kidx_from names : forall i j k, find_kidx (map swap (from i names)) j = Some k <-> i <= j /\ nth_error names (Z.to_nat (j - i)) = Some k.
Proof.
  induction names as [|a r IH]; intros i j k; cbn [from map swap fst snd find_kidx].
  - split; [discriminate|]. intros [_ H]. destruct (Z.to_nat _); discriminate.
  - destruct (Z.eqb_spec i j) as [->|N].
    + rewrite Z.sub_diag. cbn. split; [intros E; split; [lia|exact E]|tauto].
    + rewrite IH. split; intros [L E].
      * split; [lia|]. replace (Z.to_nat (j - i)) with (S (Z.to_nat (j - (i + 1)))) by lia. exact E.
      * split; [lia|]. replace (Z.to_nat (j - i)) with (S (Z.to_nat (j - (i + 1)))) in E by lia. exact E.
Qed.
Lemma kidx_none names i j : i + Z.of_nat (length names) <= j -> find_kidx (map swap (from i names)) j = None.
Proof.
  intros H. destruct (find_kidx _ j) as [k|] eqn:E; [|reflexivity]. apply kidx_from in E as [L E].
  assert (nth_error names (Z.to_nat (j - i)) <> None) by congruence. apply nth_error_Some in H0. lia.
Qed.
Lemma unused_first used mn n : used (next_id mn n) = false -> unused_id used mn n = Ok (next_id mn n).
Proof. intros H. unfold unused_id. cbv zeta. destruct (Z.to_nat (2 ^ 16)); cbn [unused_loop]; now rewrite H. Qed.

Definition also (dk : str) (names : list str) (k : str) : list str := if in_dec str_eq_dec k (dk :: names) then names else names ++ [k].

Lemma also_length dk names k : (length names <= length (also dk names k))%nat.
Proof. unfold also. destruct (in_dec _ _ _); [lia|]. rewrite app_length. lia. Qed.
Lemma learn_also dk names k v r : learn dk names (Kvsto k v :: r) = learn dk (also dk names k) r.
Proof. reflexivity. Qed.
Lemma learn_length dk ops : forall names, (length names <= length (learn dk names ops))%nat.
Proof.
  induction ops as [|[i|i s|i v|k v|k v] r IH]; intros names; try (cbn [learn]; apply IH); [cbn; lia|].
  rewrite learn_also. specialize (IH (also dk names k)). pose proof (also_length dk names k). lia.
Qed.

Lemma order_add dk names c k c' : in_order dk names c -> Z.of_nat (length (also dk names k)) <= 65534 -> find_or_add_key dk c k = Ok c' ->
  in_order dk (also dk names k) c'.
Proof.
  intros [E Nd] Hl. unfold find_or_add_key. assert (Ek : t_keys (d_store c) = from 1 (dk :: names)) by (unfold kn in E; congruence). rewrite Ek.
  unfold also in *. destruct (in_dec str_eq_dec k (dk :: names)) as [I|I].
  { destruct (find_key _ k) as [j|] eqn:F; [|apply find_from in F; contradiction]. intros H. injection H as <-. split; assumption. }
  rewrite (proj2 (find_from (dk :: names) k 1) I). destruct (make_space dk None c _ 0) as [c1|] eqn:M; cbn [bind]; [|discriminate].
  apply kn_space in M. rewrite E in M. pose proof (f_equal (fun x => fst (fst x)) M) as M1. pose proof (f_equal (fun x => snd (fst x)) M) as M2. pose proof (f_equal snd M) as M3. unfold kn in M1, M2, M3. cbn [fst snd] in M1, M2, M3. rewrite app_length in Hl. cbn [length] in Hl.
  assert (Nx : next_id 0 (t_kid (d_store c1)) = 2 + Z.of_nat (length names)).
  { rewrite M3. unfold next_id. change (2 ^ 16) with 65536. rewrite Nat2Z.inj_add in Hl. cbn [Z.of_nat] in Hl. destruct (Z.leb_spec 65536 (1 + Z.of_nat (length names) + 1)); lia. }
  rewrite unused_first; rewrite Nx; [|rewrite M2; rewrite kidx_none by lia; reflexivity]. cbn [bind]. intros H.
  pose proof (f_equal (fun r => match r with Ok x => x | Err _ => c' end) H) as H'. cbv beta iota in H'. subst c'. clear H.
  split.
  - unfold kn. cbn [d_store t_keys t_kidx t_kid]. rewrite M1, M2. rewrite app_length. cbn [length].
    change (dk :: names ++ [k]) with ((dk :: names) ++ [k]). rewrite !from_app, map_app. cbn [map swap fst snd length].
    replace (1 + Z.of_nat (S (length names))) with (2 + Z.of_nat (length names)) by lia.
    replace (1 + Z.of_nat (length names + 1)) with (2 + Z.of_nat (length names)) by lia. reflexivity.
  - change (dk :: names ++ [k]) with ((dk :: names) ++ [k]). apply (Permutation_NoDup (Permutation_cons_append (dk :: names) k)). now constructor.
Qed.

Definition also_all (dk : str) (names : list str) (ps : list (str * str)) : list str := fold_left (fun ns p => also dk ns (fst p)) ps names.
Lemma also_all_length dk ps : forall names, (length names <= length (also_all dk names ps))%nat.
Proof.
  induction ps as [|p r IH]; intros names; cbn [also_all fold_left]; [lia|]. specialize (IH (also dk names (fst p))). unfold also_all in IH.
  pose proof (also_length dk names (fst p)). lia.
Qed.

Lemma order_pair dk gid k v names c c' : in_order dk names c -> Z.of_nat (length (also dk names k)) <= 65534 -> store_pair dk gid c (k, v) = Ok c' ->
  in_order dk (also dk names k) c'.
Proof.
  intros I L. unfold store_pair. destruct (find_or_add_key dk c k) as [c2|] eqn:F; cbn [bind]; [|discriminate].
  apply (order_add dk names) in F; [|exact I|exact L]. destruct (find_val (t_lru (d_store c2)) k v); [intros S; injection S as <-; exact F|].
  destruct (make_space dk (Some k) c2 (Z.of_nat (length v)) 1) as [c3|] eqn:M; cbn [bind]; [|discriminate].
  destruct (unused_id (lru_used (t_lru (d_store c3))) n_defaults (t_lid (d_store c3))) as [j|]; cbn [bind]; [|discriminate].
  intros S. apply kn_toggle in S. apply kn_space in M. destruct F as [F Nd]. split; [|exact Nd]. rewrite S, <- F, <- M. reflexivity.
Qed.
Lemma order_pairs dk gid ps : forall names c c', in_order dk names c -> Z.of_nat (length (also_all dk names ps)) <= 65534 -> store_pairs dk gid c ps = Ok c' ->
  in_order dk (also_all dk names ps) c'.
Proof.
  induction ps as [|[k v] r IH]; intros names c c' I L; cbn [store_pairs]; [intros E; now injection E as <-|].
  change (also_all dk names ((k, v) :: r)) with (also_all dk (also dk names k) r) in *.
  destruct (store_pair dk gid c (k, v)) as [c1|] eqn:S; cbn [bind]; [|discriminate]. apply (IH (also dk names k) c1 c'); [|exact L].
  apply (order_pair dk gid k v names c c1 I); [|exact S]. pose proof (also_all_length dk r (also dk names k)). lia.
Qed.

(** The pairs set aside for storing: of the names of a message's clones nothing is new. *)
Lemma exec_later gid names dk ops : forall c hd later c' hd' later', in_order dk names c -> exec_ops1 c gid hd later ops = Ok (c', hd', later') ->
  kn c' = kn c /\ exists new, later' = later ++ new /\ forall ns, incl names ns -> also_all dk ns new = learn dk ns ops.
Proof.
  induction ops as [|[i|i s|i v|k v|k v] r IH]; intros c hd later c' hd' later' I; cbn [exec_ops1].
  - intros E. injection E as <- _ <-. split; [reflexivity|]. exists []. split; [now rewrite app_nil_r|]. reflexivity.
  - destruct (do_toggle c gid i) as [c1|] eqn:T; cbn [bind]; [|discriminate]. intros E. apply kn_toggle in T.
    destruct (IH _ _ _ _ _ _ (conj (eq_trans T (proj1 I)) (proj2 I)) E) as [K (new & L & N)]. split; [congruence|]. now exists new.
  - destruct (do_toggles c gid _) as [c1|] eqn:T; cbn [bind]; [|discriminate]. intros E. apply kn_toggles in T.
    destruct (IH _ _ _ _ _ _ (conj (eq_trans T (proj1 I)) (proj2 I)) E) as [K (new & L & N)]. split; [congruence|]. now exists new.
  - destruct (find_kidx _ i) as [k|] eqn:F; [|discriminate]. intros E. destruct (IH _ _ _ _ _ _ I E) as [K (new & L & N)]. split; [exact K|].
    exists ((k, v) :: new). split; [rewrite L, <- app_assoc; reflexivity|]. intros ns Hn. cbn [learn]. rewrite <- N by exact Hn. cbn [also_all fold_left fst].
    unfold also at 2. destruct (in_dec str_eq_dec k (dk :: ns)) as [|Nk]; [reflexivity|]. exfalso. apply Nk. right. apply Hn.
    destruct I as [I _]. unfold kn in I. injection I as _ I _. rewrite I in F. apply kidx_from in F as [_ F]. now apply nth_error_In in F.
  - intros E. destruct (IH _ _ _ _ _ _ I E) as [K (new & L & N)]. split; [exact K|]. exists ((k, v) :: new). split; [rewrite L, <- app_assoc; reflexivity|].
    intros ns Hn. rewrite learn_also. rewrite <- N; [reflexivity|]. unfold also. destruct (in_dec _ _ _); [exact Hn|]. now apply incl_appl.
  - intros E. destruct (IH _ _ _ _ _ _ I E) as [K (new & L & N)]. split; [exact K|]. exists new. split; [exact L|]. intros ns Hn. cbn [learn]. now apply N.
Qed.

Lemma execute_order dk ord c ops gid c' out names : in_order dk names c -> Z.of_nat (length (learn dk names ops)) <= 65534 ->
  execute1 dk ord c ops gid = Ok (c', out) -> in_order dk (learn dk names ops) c'.
Proof.
  intros I L. unfold execute1. cbv zeta. set (c0 := mk_code1 (d_store c) _). assert (I0 : in_order dk names c0) by exact I.
  destruct (append_on _ _ _) as [hd|]; cbn [bind]; [|discriminate]. destruct (exec_ops1 c0 gid hd [] ops) as [[[c1 h1] later]|] eqn:E; cbn [bind]; [|discriminate].
  destruct (exec_later gid names dk ops _ _ _ _ _ _ I0 E) as [K (new & -> & N)]. cbn [app] in *. specialize (N names (incl_refl _)).
  destruct (store_pairs dk gid c1 new) as [c2|] eqn:S; cbn [bind]; [|discriminate]. intros H. injection H as <- _. rewrite <- N in *.
  apply (order_pairs dk gid new names c1 c2); try assumption. destruct I0 as [I1 I2]. split; [congruence|exact I2].
Qed.

Lemma hears_order dk iter h maxb maxv d names : hears dk iter h maxb maxv d names -> Z.of_nat (length names) <= 65534 -> in_order dk names d.
Proof.
  intros H. induction H as [|d names ord blob gid ops d' out H IH W E]; intros L.
  - split; [reflexivity|]. constructor; [intros []|constructor].
  - assert (L0 : Z.of_nat (length names) <= 65534) by (pose proof (learn_length dk ops names); lia). specialize (IH L0).
    unfold decompress1 in E. rewrite W in E. cbn [bind] in E. destruct (execute1 dk ord _ ops gid) as [[c1 o1]|] eqn:X; cbn [bind] in E; [|discriminate].
    assert (IH' : in_order dk names (mk_code1 (d_store d) (find_or_make (d_groups d) gid))) by exact IH.
    apply (execute_order dk ord _ ops gid c1 o1 names IH' L) in X. destruct (adjust1 iter c1 gid) as [c2|] eqn:A; cbn [bind] in E; [|discriminate].
    injection E as <- _. apply kn_adjust in A. destruct X as [X1 X2]. split; [congruence|exact X2].
Qed.

(** ** C93 *)

(** A message of one clone operation in a fresh group: if it is decoded, the
    header is the value given and the name with that number; a number that no
    name has makes it raise AttributeError. *)
Theorem C93_clone_names : forall dk iter h maxb maxv d names ord blob gid i v,
  hears dk iter h maxb maxv d names -> Z.of_nat (length names) <= 65534 -> (forall z, Permutation (ord z) z) ->
  from_wire1 h blob = Ok (gid, [Clone i v]) -> gget (d_groups d) gid = None ->
  (forall d' out, decompress1 dk iter h ord d blob = Ok (d', out) ->
    exists k, numbered names i k /\ out = (if str_eqb k (lit "cookie") then [(k, nul_to_semi v)] else [(k, v)])) /\
  ((forall k, ~ numbered names i k) -> decompress1 dk iter h ord d blob = Err AttributeError).
Proof.
  intros dk iter h maxb maxv d names ord blob gid i v H L P W G. pose proof (hears_order _ _ _ _ _ _ _ H L) as [K _]. unfold kn in K. injection K as _ K _.
  unfold decompress1. rewrite W. cbn [bind]. unfold execute1. cbv zeta. cbn [d_store d_groups toggle_set flat_map toggled app fold_left].
  assert (C : cur_of (find_or_make (find_or_make (d_groups d) gid) gid) gid = []).
  { assert (Q : forall g, gget g gid = None -> find_or_make g gid = gset g gid []) by (intros g Hg; unfold find_or_make; now rewrite Hg).
    rewrite (Q _ G). unfold find_or_make. rewrite gget_gset_case, N.eqb_refl. unfold cur_of. now rewrite gget_gset_case, N.eqb_refl. }
  rewrite C. change (zsymdiff [] []) with (@nil Z). rewrite (perm_nil_eq _ (P [])). cbn [append_on bind exec_ops1 d_store]. rewrite K.
  split.
  - intros d' out. destruct (find_kidx (map swap (from 2 names)) i) as [k|] eqn:F; [|discriminate]. apply kidx_from in F. cbn [bind app].
    destruct (store_pairs _ _ _ _) as [c1|]; cbn [bind]; [|discriminate]. destruct (adjust1 _ _ _) as [c2|]; cbn [bind]; [|discriminate].
    intros E. injection E as _ <-. exists k. split; [exact F|]. unfold append_to_headers. cbn [dget dset]. unfold cookie_nul. cbn [dget].
    destruct (str_eqb_spec k (lit "cookie")) as [->|N]; [reflexivity|].
    destruct (str_eqb_spec (lit "cookie") k) as [<-|]; [congruence|reflexivity].
  - intros N. destruct (find_kidx (map swap (from 2 names)) i) as [k|] eqn:F; [|reflexivity]. apply kidx_from in F. exfalso. exact (N k F).
Qed.
Print Assumptions C93_clone_names.

(** In a session, a clone operation made by the compressor has the number of the
    name of the header it stands for, as the other end has learnt it; and a
    store operation has a name that has not been learnt. *)
Lemma keep_sub l idxs : forall hs done hs' done', keep_loop1 l idxs hs done = Ok (hs', done') -> incl hs' hs.
Proof.
  induction idxs as [|i r IH]; intros hs done hs' done'; cbn [keep_loop1]; [intros E; injection E as <- _; apply incl_refl|].
  destruct (look l i) as [e|]; cbn [bind]; [|discriminate]. cbv zeta. destruct (mem_pair _ _); intros E; apply IH in E; [|exact E].
  intros p Hp. apply E in Hp. unfold remove_pair in Hp. now apply filter_In in Hp.
Qed.
Lemma make_op_sources dk t names ps : t_keys t = from 1 (dk :: names) -> (forall v, ~ In (dk, v) ps) -> forall m,
  (forall n v, In (n, v) (m1_clone (fold_left (make_op1 t) ps m)) -> In (n, v) (m1_clone m) \/ exists k, numbered names n k /\ In (k, v) ps) /\
  (forall k v, In (k, v) (m1_kvsto (fold_left (make_op1 t) ps m)) -> In (k, v) (m1_kvsto m) \/ ~ In k names /\ In (k, v) ps).
Proof.
  intros K. induction ps as [|[k y] r IH]; intros Nd m; cbn [fold_left]; [split; intros; now left|].
  destruct (IH (fun v Hv => Nd v (or_intror Hv)) (make_op1 t m (k, y))) as [A B]. split.
  - intros n v H. apply A in H as [H|(k' & H1 & H2)]; [|right; exists k'; split; [exact H1|now right]]. revert H. unfold make_op1.
    destruct (str_eqb k _ || str_eqb k _); [now left|]. rewrite K. destruct (find_key (from 1 (dk :: names)) k) as [j|] eqn:F; [|now left].
    destruct (find_val _ k y); cbn [m1_clone]; [now left|]. intros H. apply in_app_or in H as [H|[H|[]]]; [now left|]. injection H as <- <-. right. exists k. split; [|now left].
    cbn [from find_key] in F. destruct (str_eqb_spec dk k) as [->|N]; [exfalso; apply (Nd y); now left|]. now apply find_from_some in F.
  - intros k' v H. apply B in H as [H|[H1 H2]]; [|right; split; [exact H1|now right]]. revert H. unfold make_op1.
    destruct (str_eqb k _ || str_eqb k _); [now left|]. rewrite K. destruct (find_key (from 1 (dk :: names)) k) as [j|] eqn:F; [destruct (find_val _ k y); now left|].
    cbn [m1_kvsto]. intros H. apply in_app_or in H as [H|[H|[]]]; [now left|]. injection H as <- <-. right. split; [|now left].
    apply find_from in F. intros H. apply F. now right.
Qed.

Theorem C93_sent : forall dk iter h maxb maxv kind c d, visits iter -> coder1 h -> session1 dk iter h maxb maxv kind c d ->
  exists names, hears dk iter h maxb maxv d names /\
  (Z.of_nat (length names) <= 65534 -> forall o headers gid c' i, order1_ok o -> (forall v, ~ In (dk, v) headers) ->
    make_operations1 dk iter o c headers gid = Ok (c', i) ->
    (forall n v, In (n, v) (i_clone i) -> exists k, numbered names n k /\ carries headers k v) /\
    (forall k v, In (k, v) (i_kvsto i) -> ~ In k names /\ carries headers k v)).
Proof.
  intros dk iter h maxb maxv kind c d Hi Hh H. assert (N : exists names, hears dk iter h maxb maxv d names).
  { induction H as [|c d m c' d' blob out H [names IH] Hm Hk E1 Hl E2]; [exists []; constructor|].
    pose proof E2 as E. unfold decompress1 in E2. destruct (from_wire1 h blob) as [[gid ops]|] eqn:W; cbn [bind] in E2; [|discriminate].
    exists (learn dk names ops). now apply (hears_message _ _ _ _ _ d names (m1_receiver m) blob gid ops d' out). }
  destruct N as [names N]. exists names. split; [exact N|]. intros L o headers gid c' i [O1 O2 O3 O4] Hdk E.
  destruct (session1_inv _ _ _ _ _ _ _ _ Hi Hh H) as (-> & _). pose proof (hears_order _ _ _ _ _ _ _ N L) as [K _].
  assert (Kk : t_keys (d_store c) = from 1 (dk :: names)) by (unfold kn in K; congruence).
  unfold make_operations1 in E. cbv zeta in E. destruct (keep_loop1 _ _ _ _) as [[hs done]|] eqn:Ek; cbn [bind] in E; [|discriminate]. apply keep_sub in Ek.
  destruct (execute1 _ _ _ _ _) as [[c1 x]|]; cbn [bind] in E; [|discriminate]. destruct (adjust1 _ _ _) as [c2|]; cbn [bind] in E; [|discriminate].
  assert (Ei : i = mk_instr (i_toggl i) (m1_clone (fold_left (make_op1 (d_store c)) (r1_headers o hs) (mk_m1 [] [] [] [])))
    (m1_kvsto (fold_left (make_op1 (d_store c)) (r1_headers o hs) (mk_m1 [] [] [] []))) (i_eref i)) by (injection E as _ <-; reflexivity).
  assert (S : forall k v, In (k, v) (r1_headers o hs) -> carries headers k v).
  { intros k v Hp. apply carries_pairs. apply Ek. apply (Permutation_in _ (O2 hs)). exact Hp. }
  destruct (make_op_sources dk (d_store c) names (r1_headers o hs) Kk) with (m := mk_m1 [] [] [] []) as [A B].
  { intros v Hv. apply S in Hv. destruct Hv as (w & ? & Hw & _). exact (Hdk w Hw). }
  rewrite Ei. cbn [i_clone i_kvsto]. split.
  - intros n v Hn. apply A in Hn as [[]|(k & H1 & H2)]. exists k. split; [exact H1|now apply S].
  - intros k v Hn. apply B in Hn as [[]|[H1 H2]]. split; [exact H1|now apply S].
Qed.
Print Assumptions C93_sent.

(** Four messages and what each makes the compressor send: a, b, c are numbered 2,
    3, 4; although only one entry fits in the table, the name a is not sent again. *)
Fixpoint clones_and_stores (c : code1) (ms : list message1) : res (list (list (Z * str) * list (str * str))) :=
  match ms with
  | [] => Ok []
  | m :: r =>
      let* (c, i) := make_operations1 (lit "eref") gels (m1_sender m) c (m1_headers m) (m1_group m) in
      let* l := clones_and_stores c r in
      Ok ((i_clone i, i_kvsto i) :: l)
  end.
Example C93_nontrivial :
  clones_and_stores (code1_new (lit "eref") 100 1) (to1 [([("b", "1"); ("a", "1")], 1%N); ([("c", "2")], 1%N); ([("a", "2")], 1%N); ([("b", "3"); ("c", "5")], 7%N)])%string =
  Ok [([], [(lit "a", lit "1"); (lit "b", lit "1")]); ([], [(lit "c", lit "2")]); ([(2, lit "2")], []); ([(4, lit "5"); (3, lit "3")], [])].
Proof. vm_compute. reflexivity. Qed.

(** ** The count of octets *)

(** A name is counted when it is stored, a value never; but when an entry is
    evicted the octets of its value are taken off, and those of the name if no
    other entry has it.  So a header too long for the table is refused at first
    and stored later. *)
Fixpoint sends (c : code1) (ds : list (list (string * string))) : res code1 :=
  match ds with
  | [] => Ok c
  | d :: r => let* (c, _) := make_operations1 (lit "eref") gels backwards1 c (map (fun p => (lit (fst p), lit (snd p))) d) 1%N in sends c r
  end.
Definition long_name : list (string * string) := [("a-header-of-23-octets-x", "1")]%string.
Theorem C93_octet_limit_refuted : exists before c,
  sends (code1_new (lit "eref") 16 1) [long_name] = Err NameError /\
  sends (code1_new (lit "eref") 16 1) (before ++ [long_name]) = Ok c /\ t_size (d_store c) = -5 /\ table_octets c = 24.
Proof.
  exists [[("a", "123456789")]; [("a", "223456789")]; [("a", "323456789")]; [("a", "4")]]%string.
  eexists. split; [vm_compute; reflexivity|]. split; [vm_compute; reflexivity|]. split; vm_compute; reflexivity.
Qed.
Print Assumptions C93_octet_limit_refuted.

(** The octets of a name are taken off only with its last entry: with room for two
    entries, evicting the first of three values of one name leaves 4 - 2 octets. *)
Definition three_values : list (list (string * string)) := [[("aaaa", "x1")]; [("aaaa", "x2")]; [("aaaa", "x3")]]%string.
Example C93_octets_of_a_name :
  (let* c := sends (code1_new (lit "eref") 12 2) three_values in Ok (t_size (d_store c))) = Ok 2 /\
  sends (code1_new (lit "eref") 12 2) (three_values ++ [[("bbbbbbbbbbb", "")]]%string) = Err NameError /\
  (let* c := sends (code1_new (lit "eref") 12 2) (three_values ++ [[("bbbbbbbbbb", "")]]%string) in Ok (t_size (d_store c), entries1 c)) =
    Ok (10, [(lit "aaaa", lit "x3", 71); (lit "bbbbbbbbbb", [], 73)]).
Proof. vm_compute. repeat split. Qed.

(** With room for no entry one is kept all the same, and evicted, with its name's
    octets, when the next name comes. *)
Example C93_no_entries :
  (let* c := sends (code1_new (lit "eref") 20 0) [[("aaaa", "x1")]; [("bbb", "y")]]%string in Ok (t_size (d_store c), entries1 c)) = Ok (1, [(lit "bbb", lit "y", 69)]).
Proof. vm_compute. reflexivity. Qed.
