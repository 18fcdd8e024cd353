(** * The trees that create_tree builds have minimal cost. *)
From Coq Require Import List NArith ZArith Bool Lia Arith Permutation Sorting.Sorted ZifyN ZifyNat.
From Verif Require Import PyBase HD_Model HDHuff_Model.
Import ListNotations.
Open Scope N_scope.
Open Scope py_scope.

(** ** Lengths that a prefix code can have: Kraft's inequality *)
Definition p2 (n : nat) : N := 2 ^ N.of_nat n.
Lemma p2_S n : p2 (S n) = 2 * p2 n.
Proof. unfold p2. now rewrite Nat2N.inj_succ, N.pow_succ_r'. Qed.
Lemma p2_add a b : p2 (a + b) = p2 a * p2 b.
Proof. unfold p2. now rewrite Nat2N.inj_add, N.pow_add_r. Qed.
Lemma p2_pos n : 1 <= p2 n.
Proof. induction n; [reflexivity|]. rewrite p2_S. lia. Qed.

Fixpoint ksum (L : nat) (ls : list nat) : N := match ls with [] => 0 | l :: r => p2 (L - l) + ksum L r end.
Definition kraft (ls : list nat) : Prop := exists L, Forall (fun l => (l <= L)%nat) ls /\ ksum L ls <= p2 L.

Lemma ksum_scale L k ls : Forall (fun l => (l <= L)%nat) ls -> ksum (L + k) ls = p2 k * ksum L ls.
Proof.
  induction 1 as [|l ls H F IH]; cbn [ksum]; [lia|]. rewrite IH. replace (L + k - l)%nat with (k + (L - l))%nat by lia.
  rewrite p2_add. lia.
Qed.

Lemma kraft_any ls L : kraft ls -> Forall (fun l => (l <= L)%nat) ls -> ksum L ls <= p2 L.
Proof.
  intros (L0 & H0 & K) H. pose proof (ksum_scale L0 L ls H0) as E1. pose proof (ksum_scale L L0 ls H) as E2.
  rewrite Nat.add_comm in E2. rewrite E1 in E2. pose proof (p2_pos L0). pose proof (p2_pos L).
  assert (p2 L0 * ksum L ls <= p2 L0 * p2 L) by nia. nia.
Qed.

Lemma ksum_perm L a b : Permutation a b -> ksum L a = ksum L b.
Proof. induction 1; cbn [ksum]; lia. Qed.

Lemma kraft_perm a b : Permutation a b -> kraft a -> kraft b.
Proof.
  intros H (L & F & K). exists L. rewrite <- (ksum_perm L a b H). split; [|exact K].
  eapply Permutation_Forall; eauto.
Qed.

(** ** Costs *)
Fixpoint pcost (P : list (N * nat)) : N := match P with [] => 0 | (w, l) :: r => w * N.of_nat l + pcost r end.

Lemma pcost_perm a b : Permutation a b -> pcost a = pcost b.
Proof. induction 1; repeat match goal with x : (N * nat)%type |- _ => destruct x end; cbn [pcost]; lia. Qed.

(** The lightest symbol may be given the longest word. *)
Lemma head_max a : forall R l, Forall (fun x => a <= fst x) R ->
  exists l' R', map fst R' = map fst R /\ Permutation (l' :: map snd R') (l :: map snd R) /\
    pcost ((a, l') :: R') <= pcost ((a, l) :: R) /\ Forall (fun x => (snd x <= l')%nat) R'.
Proof.
  induction R as [|[x lx] R IH]; intros l H.
  - exists l, []. repeat split; auto. lia.
  - inversion H as [|? ? Hx HR]; subst. cbn [fst] in Hx. destruct (IH l HR) as (l1 & R1 & E & Pm & C & F).
    destruct (le_lt_dec lx l1) as [Hle|Hlt].
    + exists l1, ((x, lx) :: R1). repeat split.
      * cbn [map fst]. now rewrite E.
      * cbn [map snd]. etransitivity; [apply perm_swap|]. etransitivity; [apply perm_skip, Pm|]. apply perm_swap.
      * cbn [pcost] in *. lia.
      * constructor; auto.
    + exists lx, ((x, l1) :: R1). repeat split.
      * cbn [map fst]. now rewrite E.
      * cbn [map snd]. etransitivity; [apply perm_skip, Pm|]. apply perm_swap.
      * cbn [pcost] in *. nia.
      * constructor; [cbn [snd]; lia|]. eapply Forall_impl; [|exact F]. cbn. intros y Hy. lia.
Qed.

Lemma Forall_map_snd (P : nat -> Prop) (R : list (N * nat)) : Forall (fun x => P (snd x)) R <-> Forall P (map snd R).
Proof. rewrite Forall_map. reflexivity. Qed.

(** Merging the two lightest. *)
Lemma merge_two a b ws P : map fst P = a :: b :: ws -> a <= b -> Forall (fun w => b <= w) ws -> kraft (map snd P) ->
  exists Q, map fst Q = (a + b) :: ws /\ kraft (map snd Q) /\ pcost Q + a + b <= pcost P.
Proof.
  intros E Hab Hws K. destruct P as [|[a0 la0] [|[b0 lb0] R0]]; try discriminate. cbn [map fst] in E.
  assert (a0 = a) by congruence. assert (b0 = b) by congruence. assert (ER0 : map fst R0 = ws) by congruence. subst a0 b0. clear E.
  assert (HR0 : Forall (fun x : N * nat => b <= fst x) R0) by (rewrite <- ER0, Forall_map in Hws; exact Hws).
  destruct (head_max a ((b, lb0) :: R0) la0) as (la & R1 & E1 & P1 & C1 & F1).
  { constructor; [exact Hab|]. eapply Forall_impl; [|exact HR0]. cbn. intros; lia. }
  destruct R1 as [|[b1 lb1] R1]; [discriminate|]. cbn [map fst] in E1.
  assert (b1 = b) by congruence. assert (ER1 : map fst R1 = ws) by congruence. subst b1. clear E1.
  assert (HR1 : Forall (fun x : N * nat => b <= fst x) R1) by (rewrite <- ER1, Forall_map in Hws; exact Hws).
  destruct (head_max b R1 lb1 HR1) as (lb & R & E2 & P2 & C2 & F2).
  assert (ER : map fst R = ws) by congruence.
  assert (Pm : Permutation (la :: lb :: map snd R) (map snd ((a, la0) :: (b, lb0) :: R0))).
  { cbn [map snd]. etransitivity; [apply perm_skip, P2|exact P1]. }
  assert (K' : kraft (la :: lb :: map snd R)) by (eapply kraft_perm; [symmetry; exact Pm|exact K]).
  assert (Hla : Forall (fun l => (l <= la)%nat) (lb :: map snd R)).
  { apply (Forall_map_snd (fun l => (l <= la)%nat)) in F1. cbn [map snd] in F1.
    eapply Permutation_Forall; [symmetry; exact P2|exact F1]. }
  assert (Hlb : Forall (fun l => (l <= lb)%nat) (map snd R)) by now apply (Forall_map_snd (fun l => (l <= lb)%nat)) in F2.
  assert (Hle : (lb <= la)%nat) by (inversion Hla; assumption).
  (* shorten la to lb *)
  assert (K2 : 2 + ksum lb (map snd R) <= p2 lb).
  { pose proof (kraft_any _ la K' (Forall_cons _ (Nat.le_refl la) Hla)) as Ka. cbn [ksum] in Ka. rewrite Nat.sub_diag in Ka.
    change (p2 0) with 1 in Ka. remember (la - lb)%nat as k eqn:Ek. assert (El : la = (lb + k)%nat) by lia.
    rewrite El, ksum_scale, p2_add in Ka by exact Hlb.
    destruct k as [|k]; [change (p2 0) with 1 in Ka; lia|]. rewrite p2_S in Ka. pose proof (p2_pos k). nia. }
  destruct lb as [|lb']; [change (p2 0) with 1 in K2; lia|].
  exists ((a + b, lb') :: R). repeat split.
  - cbn [map fst]. now rewrite ER.
  - exists (S lb'). cbn [map snd]. split; [constructor; [lia|exact Hlb]|]. cbn [ksum]. replace (S lb' - lb')%nat with 1%nat by lia.
    change (p2 1) with 2. exact K2.
  - cbn [pcost] in *. assert (a * N.of_nat (S lb') <= a * N.of_nat la) by nia. lia.
Qed.

(** ** Trees *)
Fixpoint tcost (t : htree) : N := match t with HLeaf _ _ => 0 | HNode p a b => p + tcost a + tcost b end.
Fixpoint wf_tree (t : htree) : Prop :=
  match t with HLeaf _ _ => True | HNode p a b => p = priority a + priority b /\ wf_tree a /\ wf_tree b end.
Fixpoint leaves (t : htree) : list (hsym * N) :=
  match t with HLeaf p s => [(s, p)] | HNode _ a b => leaves a ++ leaves b end.
Definition fcost (F : list htree) : N := fold_right (fun t n => tcost t + n) 0 F.

Lemma fcost_perm a b : Permutation a b -> fcost a = fcost b.
Proof. induction 1; cbn; unfold fcost in *; cbn [fold_right] in *; lia. Qed.

Definition ple (a b : htree) : Prop := priority a <= priority b.
Definition psorted (l : list htree) : Prop := StronglySorted ple l.

Lemma insert_perm x l : Permutation (insert_node x l) (x :: l).
Proof.
  induction l as [|y l IH]; cbn [insert_node]; [reflexivity|]. destruct (priority x <=? priority y); [reflexivity|].
  etransitivity; [apply perm_skip, IH|apply perm_swap].
Qed.

Lemma insert_sorted x l : psorted l -> psorted (insert_node x l).
Proof.
  induction 1 as [|y l S IH F]; cbn [insert_node]; [repeat constructor|].
  destruct (N.leb_spec (priority x) (priority y)) as [H|H].
  - constructor; [now constructor|]. constructor; [exact H|]. eapply Forall_impl; [|exact F]. unfold ple. intros; lia.
  - constructor; [exact IH|]. eapply Permutation_Forall; [symmetry; apply insert_perm|]. constructor; [unfold ple; lia|exact F].
Qed.

Lemma sort_perm l : Permutation (sort_nodes l) l.
Proof. induction l as [|x l IH]; cbn; [constructor|]. etransitivity; [apply insert_perm|now apply perm_skip]. Qed.
Lemma sort_sorted l : psorted (sort_nodes l).
Proof. induction l as [|x l IH]; cbn; [constructor|now apply insert_sorted]. Qed.

Lemma pick_ok o n : psorted o -> psorted n -> (1 <= length o + length n)%nat ->
  exists x o' n', pick_node o n = Ok (x, o', n') /\ Permutation (x :: o' ++ n') (o ++ n) /\
    psorted o' /\ psorted n' /\ Forall (ple x) (o' ++ n') /\ incl n' n.
Proof.
  intros So Sn H. destruct o as [|x o], n as [|y n]; cbn in H; try lia.
  - inversion Sn; subst. exists y, [], n. cbn. repeat split; auto. now apply incl_tl.
  - inversion So; subst. exists x, o, []. cbn. rewrite !app_nil_r. repeat split; auto. apply incl_refl.
  - cbn [pick_node]. inversion So as [|? ? So' Fo]; subst. inversion Sn as [|? ? Sn' Fn]; subst.
    destruct (N.leb_spec (priority x) (priority y)) as [Hle|Hgt].
    + exists x, o, (y :: n). repeat split; auto; [|apply incl_refl]. apply Forall_app. split; [exact Fo|].
      constructor; [exact Hle|]. eapply Forall_impl; [|exact Fn]. unfold ple. intros; lia.
    + exists y, (x :: o), n. split; [reflexivity|]. split; [apply (Permutation_middle (x :: o) n y)|]. split; [exact So|]. split; [exact Sn'|].
      split; [|now apply incl_tl, incl_refl]. apply Forall_app. split; [|exact Fn].
      constructor; [unfold ple; lia|]. eapply Forall_impl; [|exact Fo]. unfold ple. intros; lia.
Qed.

Lemma sorted_snoc l x : psorted l -> Forall (fun y => ple y x) l -> psorted (l ++ [x]).
Proof.
  induction 1 as [|y l S IH F]; intros H; cbn [app]; [repeat constructor|]. inversion H; subst. constructor; [now apply IH|].
  apply Forall_app. split; [exact F|repeat constructor; assumption].
Qed.

Definition queues (o n : list htree) : Prop :=
  psorted o /\ psorted n /\ exists m, Forall (fun t => m <= priority t) (o ++ n) /\ Forall (fun t => priority t <= 2 * m) n.

Definition is_hnode (t : htree) : Prop := match t with HNode _ _ _ => True | _ => False end.

Lemma flat_map_perm {A B} (f : A -> list B) a b : Permutation a b -> Permutation (flat_map f a) (flat_map f b).
Proof.
  induction 1; cbn [flat_map]; [constructor|now apply Permutation_app_head| |etransitivity; eauto].
  rewrite !app_assoc. apply Permutation_app_tail, Permutation_app_comm.
Qed.

Lemma tree_loop_ok : forall fuel o n, queues o n -> (length o + length n <= S fuel)%nat ->
  (n = [] -> 2 <= length o)%nat -> Forall wf_tree (o ++ n) -> Forall is_hnode n ->
  exists t, tree_loop fuel o n = Ok [t] /\ wf_tree t /\ is_hnode t /\
    Permutation (leaves t) (flat_map leaves (o ++ n)) /\
    forall P, Permutation (map fst P) (map priority (o ++ n)) -> kraft (map snd P) -> tcost t <= fcost (o ++ n) + pcost P.
Proof.
  induction fuel as [|fuel IH]; intros o n Q Hf H2 W Hn.
  - destruct o as [|x [|? ?]], n as [|y [|? ?]]; cbn [length] in *; try lia; try (specialize (H2 eq_refl); lia).
    exists y. cbn. inversion W; subst. inversion Hn; subst. repeat split; auto; [now rewrite app_nil_r|]. intros; lia.
  - destruct (le_lt_dec 2 (length o + length n)) as [Hge|Hlt].
    2:{ destruct o as [|x [|? ?]], n as [|y [|? ?]]; cbn [length] in *; try lia; try (specialize (H2 eq_refl); lia).
        exists y. cbn. inversion W; subst. inversion Hn; subst. repeat split; auto; [now rewrite app_nil_r|]. intros; lia. }
    cbn [tree_loop]. rewrite (proj2 (Nat.leb_le _ _) Hge). destruct Q as (So & Sn & m & Hm & H2m).
    destruct (pick_ok o n So Sn ltac:(lia)) as (x & o1 & n1 & E1 & P1 & So1 & Sn1 & L1 & I1). rewrite E1. cbn [bind].
    assert (Hl1 : S (length o1 + length n1) = (length o + length n)%nat).
    { apply Permutation_length in P1. cbn [length] in P1. rewrite !app_length in P1. exact P1. }
    destruct (pick_ok o1 n1 So1 Sn1 ltac:(lia)) as (y & o2 & n2 & E2 & P2 & So2 & Sn2 & L2 & I2). rewrite E2. cbn [bind].
    assert (Hl2 : S (length o2 + length n2) = (length o1 + length n1)%nat).
    { apply Permutation_length in P2. cbn [length] in P2. rewrite !app_length in P2. exact P2. }
    assert (P12 : Permutation (x :: y :: o2 ++ n2) (o ++ n)) by (etransitivity; [apply perm_skip, P2|exact P1]).
    assert (Hm' : Forall (fun t => m <= priority t) (x :: y :: o2 ++ n2)) by (eapply Permutation_Forall; [symmetry; exact P12|exact Hm]).
    inversion Hm' as [|? ? Hmx Hm'']; subst. inversion Hm'' as [|? ? Hmy Hmr]; subst.
    assert (Hxy : priority x <= priority y).
    { assert (F : Forall (ple x) (y :: o2 ++ n2)) by (eapply Permutation_Forall; [symmetry; exact P2|exact L1]). now inversion F. }
    assert (W' : Forall wf_tree (x :: y :: o2 ++ n2)) by (eapply Permutation_Forall; [symmetry; exact P12|exact W]).
    inversion W' as [|? ? Wx W'']; subst. inversion W'' as [|? ? Wy Wr]; subst. apply Forall_app in Wr. destruct Wr as [Wo Wn].
    assert (In2 : incl n2 n) by (intros z Hz; apply I1, I2, Hz).
    set (z := node_add x y). assert (Hz : priority z = priority x + priority y) by reflexivity.
    assert (Pz : Permutation (o2 ++ n2 ++ [z]) (z :: o2 ++ n2)).
    { rewrite app_assoc. symmetry. apply Permutation_cons_append. }
    destruct (IH o2 (n2 ++ [z])) as (t & Et & Wt & Nt & Lt & Ct).
    + split; [exact So2|]. split.
      * apply sorted_snoc; [exact Sn2|]. apply Forall_forall. intros u Hu. unfold ple. rewrite Hz.
        rewrite Forall_forall in H2m. specialize (H2m u (In2 u Hu)). lia.
      * exists (priority y). split.
        -- eapply Permutation_Forall; [symmetry; exact Pz|]. constructor; [lia|exact L2].
        -- apply Forall_app. split; [|repeat constructor; lia]. apply Forall_forall. intros u Hu.
           rewrite Forall_forall in H2m. specialize (H2m u (In2 u Hu)). lia.
    + rewrite app_length. cbn [length]. lia.
    + intros E. destruct n2; discriminate.
    + apply Forall_app. split; [exact Wo|]. apply Forall_app. split; [exact Wn|]. repeat constructor; assumption.
    + apply Forall_app. split; [|repeat constructor]. apply Forall_forall. intros u Hu. rewrite Forall_forall in Hn. apply Hn, In2, Hu.
    + exists t. split; [exact Et|]. split; [exact Wt|]. split; [exact Nt|]. split.
      * etransitivity; [exact Lt|]. etransitivity; [apply flat_map_perm, Pz|].
        etransitivity; [|apply flat_map_perm, P12]. cbn [flat_map leaves z node_add]. now rewrite app_assoc.
      * intros P HP HK.
        assert (HP' : Permutation (priority x :: priority y :: map priority (o2 ++ n2)) (map fst P)).
        { symmetry. etransitivity; [exact HP|]. symmetry. exact (Permutation_map priority P12). }
        apply Permutation_map_inv in HP'. destruct HP' as (P' & EP & PP).
        destruct (merge_two (priority x) (priority y) (map priority (o2 ++ n2)) P') as (Qp & EQ & KQ & CQ).
        -- now symmetry.
        -- exact Hxy.
        -- rewrite Forall_map. eapply Forall_impl; [|exact L2]. auto.
        -- eapply kraft_perm; [|exact HK]. apply Permutation_map. exact PP.
        -- specialize (Ct Qp). rewrite <- (pcost_perm _ _ PP) in CQ.
           assert (Ct' : tcost t <= fcost (o2 ++ n2 ++ [z]) + pcost Qp).
           { apply Ct; [|exact KQ]. rewrite EQ. symmetry. exact (Permutation_map priority Pz). }
           rewrite (fcost_perm _ _ Pz) in Ct'. rewrite <- (fcost_perm _ _ P12).
           unfold fcost in *. cbn [fold_right] in *. cbn [tcost z node_add] in Ct'. lia.
Qed.

(** create_tree on two or more symbols. *)
Lemma create_tree_ok syms : (2 <= length syms)%nat ->
  exists t, create_tree syms = Ok t /\ wf_tree t /\ is_hnode t /\ Permutation (leaves t) syms /\
    forall P, Permutation (map fst P) (map snd syms) -> kraft (map snd P) -> tcost t <= pcost P.
Proof.
  intros H. unfold create_tree. set (nodes := map (fun '(k, v) => HLeaf v k) syms).
  assert (Hlen : length nodes = length syms) by apply map_length.
  destruct (tree_loop_ok (length nodes) (sort_nodes nodes) []) as (t & E & W & Nd & L & C).
  - split; [apply sort_sorted|]. split; [constructor|]. exists 0. split; [|constructor]. apply Forall_forall. intros; lia.
  - rewrite (Permutation_length (sort_perm nodes)). cbn [length]. lia.
  - intros _. rewrite (Permutation_length (sort_perm nodes)). lia.
  - rewrite app_nil_r. eapply Permutation_Forall; [symmetry; apply sort_perm|]. unfold nodes. rewrite Forall_map.
    apply Forall_forall. intros [k v] _. exact I.
  - constructor.
  - rewrite app_nil_r in *. exists t. rewrite E. cbn [bind]. split; [reflexivity|]. split; [exact W|]. split; [exact Nd|].
    assert (Es : flat_map leaves nodes = syms).
    { unfold nodes. clear. induction syms as [|[k v] l IH]; cbn; [reflexivity|]. now rewrite IH. }
    assert (Ew : map priority nodes = map snd syms).
    { unfold nodes. rewrite map_map. apply map_ext. now intros [k v]. }
    assert (Ef : fcost nodes = 0).
    { unfold nodes. clear. induction syms as [|[k v] l IH]; cbn in *; auto. }
    split.
    + etransitivity; [exact L|]. rewrite <- Es. apply flat_map_perm, sort_perm.
    + intros P HP HK. specialize (C P). rewrite (fcost_perm _ _ (sort_perm nodes)), Ef in C. apply C; [|exact HK].
      etransitivity; [exact HP|]. rewrite <- Ew. symmetry. apply Permutation_map, sort_perm.
Qed.

(** ** Prefix codes satisfy Kraft's inequality *)
Definition prefix_of (a b : list bool) : Prop := exists c, b = a ++ c.
Definition comparable (a b : list bool) : Prop := prefix_of a b \/ prefix_of b a.

Inductive pairwise {A} (R : A -> A -> Prop) : list A -> Prop :=
| pw_nil : pairwise R []
| pw_cons x l : Forall (R x) l -> pairwise R l -> pairwise R (x :: l).

Definition incomparable (a b : list bool) : Prop := ~ comparable a b.

(** The words that start with [b], without it. *)
Fixpoint tails (b : bool) (ws : list (list bool)) : list (list bool) :=
  match ws with
  | [] => []
  | [] :: r => tails b r
  | (c :: w) :: r => if Bool.eqb b c then w :: tails b r else tails b r
  end.

Lemma incomparable_cons b u v : incomparable (b :: u) (b :: v) -> incomparable u v.
Proof. intros H C. apply H. destruct C as [[c ->]|[c ->]]; [left|right]; exists c; reflexivity. Qed.

Lemma tails_in b ws w : In w (tails b ws) -> In (b :: w) ws.
Proof.
  induction ws as [|[|c u] ws IH]; cbn [tails In]; [tauto|tauto|]. destruct (Bool.eqb_spec b c) as [->|Hne]; [|tauto].
  cbn [In]. intros [->|H]; auto.
Qed.

Lemma tails_pairwise b ws : pairwise incomparable ws -> pairwise incomparable (tails b ws).
Proof.
  induction 1 as [|x l F Pw IH]; cbn [tails]; [constructor|]. destruct x as [|c u]; [exact IH|].
  destruct (Bool.eqb_spec b c) as [->|Hne]; [|exact IH]. constructor; [|exact IH].
  apply Forall_forall. intros w Hw. apply tails_in in Hw. rewrite Forall_forall in F. specialize (F _ Hw). now apply incomparable_cons in F.
Qed.

Lemma tails_ksum L ws : Forall (fun w => (1 <= length w <= S L)%nat) ws ->
  ksum (S L) (map (@length bool) ws) = ksum L (map (@length bool) (tails true ws)) + ksum L (map (@length bool) (tails false ws)).
Proof.
  induction 1 as [|x l H F IH]; [reflexivity|]. destruct x as [|c u]; [cbn in H; lia|]. cbn [map ksum tails]. rewrite IH.
  cbn [length]. rewrite Nat.sub_succ. destruct c; cbn [Bool.eqb map ksum]; lia.
Qed.

Lemma prefix_ksum : forall L ws, pairwise incomparable ws -> Forall (fun w => (length w <= L)%nat) ws ->
  ksum L (map (@length bool) ws) <= p2 L.
Proof.
  induction L as [|L IH]; intros ws Pw F.
  - destruct ws as [|x ws]; [cbn; lia|]. inversion Pw as [|? ? Fx _]; subst. destruct ws as [|y ws].
    + cbn. change (p2 0) with 1. lia.
    + exfalso. inversion F as [|? ? Hx F']; subst. inversion F' as [|? ? Hy _]; subst. inversion Fx as [|? ? Hxy _]; subst. apply Hxy.
      destruct x; [|cbn in Hx; lia]. left. now exists y.
  - destruct (in_dec (list_eq_dec Bool.bool_dec) [] ws) as [Hin|Hnin].
    + apply in_split in Hin. destruct Hin as (u & v & ->).
      assert (E : u = [] /\ v = []).
      { destruct u as [|x u].
        - split; [reflexivity|]. inversion Pw as [|? ? Fx _]; subst. destruct v as [|y v]; [reflexivity|]. inversion Fx as [|? ? Hxy _]; subst.
          exfalso. apply Hxy. left. now exists y.
        - exfalso. cbn [app] in Pw. inversion Pw as [|? ? Fx _]; subst. rewrite Forall_forall in Fx.
          apply (Fx []); [apply in_or_app; right; now left|]. right. now exists x. }
      destruct E as [-> ->]. cbn [app map ksum length]. rewrite Nat.sub_0_r. lia.
    + rewrite tails_ksum.
      2:{ apply Forall_forall. intros w Hw. rewrite Forall_forall in F. specialize (F w Hw). destruct w; [tauto|cbn in *; lia]. }
      assert (Ht : forall b, ksum L (map (@length bool) (tails b ws)) <= p2 L).
      { intros b. apply IH; [now apply tails_pairwise|]. apply Forall_forall. intros w Hw. apply tails_in in Hw.
        rewrite Forall_forall in F. specialize (F _ Hw). cbn in F. lia. }
      rewrite p2_S. pose proof (Ht true). pose proof (Ht false). lia.
Qed.

Lemma prefix_kraft ws : pairwise incomparable ws -> kraft (map (@length bool) ws).
Proof.
  intros Pw. exists (list_max (map (@length bool) ws)). split.
  - apply list_max_le, Nat.le_refl.
  - apply prefix_ksum; [exact Pw|]. pose proof (proj1 (list_max_le (map (@length bool) ws) _) (Nat.le_refl _)) as F.
    now rewrite Forall_map in F.
Qed.
