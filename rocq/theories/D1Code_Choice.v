(** * Which instructions delta (v1)'s compressor chooses. *)
From Coq Require Import String List NArith ZArith Bool Arith Lia Permutation Sorted.
From Verif Require Import PyBase PyStr Lib_Model Lib_Spec Lib_Proofs Small_Model D2Huff_Model D2Store_Model D2Code_Model Prop_D2Ranges D2Code_Sets D2Code_Exec D2Code_Make D2Code_Round D2Code_Says
  D1Huff_Model D1Wire_Model D1Wire_Frame Prop_D1Wire D1Code_Model D1Code_Inv D1Code_Store D1Code_Exec D1Code_Round Prop_D1Code Prop_D1Names.
Import ListNotations.
Open Scope Z_scope.
Open Scope py_scope.

(** ** Specification *)

(** The entry with the index [i] reads [n], [v]. *)
Definition reads1 (c : code1) (i : Z) (n v : str) : Prop := In (n, v, i) (entries1 c).
(** The entries which are visible in a header group. *)
Definition in_group1 (c : code1) (gid : N) (i : Z) : Prop := exists z, gget (d_groups c) gid = Some z /\ In i z.

(** An entry which has to leave the group, or to join it. *)
Definition flips (c : code1) (gid : N) (d : hdict) (i : Z) : Prop := exists n v, reads1 c i n v /\
  ((in_group1 c gid i /\ ~ carries d n v) \/ (~ in_group1 c gid i /\ carries d n v)).

(** [names] are the names learnt so far, see C93. *)
Record chosen1 (names : list str) (c : code1) (gid : N) (d : hdict) (ops : list op1) : Prop := {
  ch1_once : NoDup ops;
  (** single toggles and ranges *)
  ch1_single : forall i, In (Toggl i) ops <-> alone (flips c gid d) i;
  ch1_range : forall last start, In (Trang last start) ops <-> run_of (flips c gid d) last start;
  (** a new value for a learnt name *)
  ch1_clone : forall i v, In (Clone i v) ops <-> exists n, numbered names i n /\ stored n /\ carries d n v /\ forall j, ~ reads1 c j n v;
  (** a name that has not been learnt *)
  ch1_store : forall n v, In (Kvsto n v) ops <-> ~ In n names /\ stored n /\ carries d n v;
  (** what is never stored *)
  ch1_eref : forall n v, In (Eref n v) ops <-> (n = lit ":path" \/ n = lit "referer") /\ carries d n v }.

(** ** Single toggles and ranges *)

Definition flip (p : Z * Z) : Z * Z := (snd p, fst p).

Lemma merge_looped r : forall D ot otr n, up r -> (forall i j, In i D -> In j r -> i < j) -> looped D ot (map flip otr) n ->
  forall ot' otr', merge_toggles r ot otr = (ot', otr') -> exists n', looped (D ++ r) ot' (map flip otr') n'.
Proof.
  induction r as [|x r IH]; intros D ot otr n U HD L ot' otr' E.
  - cbn [merge_toggles] in E. injection E as <- <-. rewrite app_nil_r. now exists n.
  - inversion U as [|? ? U1 U2]; subst. destruct (looped_step D ot (map flip otr) n x) as (S1 & S2 & S3); [intros i Hi; apply HD; [exact Hi|now left]|exact L|].
    assert (HD' : forall i j, In i (D ++ [x]) -> In j r -> i < j).
    { intros i j Hi Hj. apply in_app_or in Hi as [Hi|[<-|[]]]; [apply HD; [exact Hi|now right]|now apply U1]. }
    replace (D ++ x :: r) with ((D ++ [x]) ++ r) by now rewrite <- app_assoc.
    assert (Q : (forall a o, map flip otr <> (x - 1, a) :: o) -> match ot with
        | t :: ot0 => if x - t =? 1 then merge_toggles r ot0 ((t, x) :: otr) else merge_toggles r (x :: ot) otr
        | [] => merge_toggles r [x] otr
        end = (ot', otr') -> exists n', looped ((D ++ [x]) ++ r) ot' (map flip otr') n').
    { intros Ne E'. destruct ot as [|t ot0].
      - apply (IH (D ++ [x]) [x] otr n U2 HD' (S3 Ne ltac:(intros o; discriminate)) _ _ E').
      - destruct (Z.eqb_spec (x - t) 1) as [Et|Et].
        + assert (t = x - 1) by lia. subst t. apply (IH (D ++ [x]) ot0 ((x - 1, x) :: otr) (S n) U2 HD' (S2 Ne _ eq_refl) _ _ E').
        + apply (IH (D ++ [x]) (x :: t :: ot0) otr n U2 HD' (S3 Ne ltac:(intros o C; injection C as C _; lia)) _ _ E'). }
    cbn [merge_toggles] in E. destruct otr as [|[a i] otr0].
    + apply Q; [discriminate|]. destruct ot; exact E.
    + destruct (Z.eqb_spec (x - i) 1) as [Ei|Ei].
      * assert (i = x - 1) by lia. subst i. apply (IH (D ++ [x]) ot ((a, x) :: otr0) (S n) U2 HD' (S1 _ _ eq_refl) _ _ E).
      * apply Q; [|destruct ot; exact E]. intros b o C. cbn [map] in C. unfold flip at 1 in C. cbn [fst snd] in C. injection C as C _ _. lia.
Qed.

Lemma sort_z_sorted l : sort_z l = sorted l.
Proof. reflexivity. Qed.

Lemma toggle_runs toggl ot otr : NoDup toggl -> toggle_ranges toggl = (ot, otr) ->
  NoDup ot /\ NoDup otr /\ (forall i, In i ot <-> alone (fun z => In z toggl) i) /\ (forall s e, In (s, e) otr <-> run_of (fun z => In z toggl) e s).
Proof.
  intros Hn. unfold toggle_ranges. destruct (merge_toggles (sort_z toggl) [] []) as [a b] eqn:E. intros H. injection H as <- <-.
  assert (L0 : looped [] [] (map flip []) 0).
  { split; [| |reflexivity|constructor|constructor].
    - intros i. split; [contradiction|intros (H & _); contradiction].
    - intros l s. split; [contradiction|intros (H1 & H2 & _); apply (H2 l); lia]. }
  destruct (merge_looped (sort_z toggl) [] [] [] 0 (up_sorted toggl Hn) ltac:(intros i j []) L0 _ _ E) as (n & [L1 L2 _ L3 L4]).
  cbn [app] in L1, L2. rewrite sort_z_sorted in L1, L2.
  assert (HS : forall z, In z (sorted toggl) <-> In z toggl) by (intros z; split; apply Permutation_in; [|symmetry]; apply sorted_perm).
  assert (DN : forall l, down l -> NoDup l).
  { clear. induction 1 as [|x l H D IH]; constructor; [|exact IH]. intros C. apply H in C. lia. }
  split; [apply NoDup_rev, DN, L3|]. split; [apply NoDup_rev; apply (NoDup_map_inv flip); apply (NoDup_map_inv fst); now apply DN|]. split.
  - intros i. rewrite <- in_rev, L1. unfold alone. now rewrite !HS.
  - intros s e. rewrite <- in_rev. transitivity (In (e, s) (map flip b)).
    { rewrite in_map_iff. split; [intros H; now exists (s, e)|]. intros ([x y] & X & Y). unfold flip in X. cbn [fst snd] in X. injection X as <- <-. exact Y. }
    rewrite L2. unfold run_of. rewrite !HS. split; intros (A & B & C); (split; [exact A|]; split; [|exact C]); intros i Hi; apply HS; now apply B.
Qed.

(** ** The instructions made *)

Definition eref_name (k : str) : bool := str_eqb k (lit ":path") || str_eqb k (lit "referer").
Lemma eref_name_true k : eref_name k = true <-> k = lit ":path" \/ k = lit "referer".
Proof. unfold eref_name. rewrite orb_true_iff. destruct (str_eqb_spec k (lit ":path")), (str_eqb_spec k (lit "referer")); intuition congruence. Qed.
Lemma eref_name_false k : eref_name k = false <-> stored k.
Proof.
  unfold stored. pose proof (eref_name_true k) as H. destruct (eref_name k); split; intros; try discriminate; try reflexivity.
  - exfalso. destruct H as [H _]. specialize (H eq_refl). tauto.
  - split; intros C; destruct H as [_ H]; specialize (H ltac:(auto)); discriminate.
Qed.

Definition tog_of (t : store1) (p : str * str) : list Z :=
  if eref_name (fst p) then [] else match find_key (t_keys t) (fst p) with
  | None => [] | Some _ => match find_val (t_lru t) (fst p) (snd p) with Some e => [v_idx e] | None => [] end end.
Definition clone_of (t : store1) (p : str * str) : list (Z * str) :=
  if eref_name (fst p) then [] else match find_key (t_keys t) (fst p) with
  | None => [] | Some k => match find_val (t_lru t) (fst p) (snd p) with Some _ => [] | None => [(k, snd p)] end end.
Definition kvsto_of (t : store1) (p : str * str) : list (str * str) :=
  if eref_name (fst p) then [] else match find_key (t_keys t) (fst p) with None => [p] | Some _ => [] end.
Definition eref_of (p : str * str) : list (str * str) := if eref_name (fst p) then [p] else [].

Lemma fold_made t ps : forall m, let m' := fold_left (make_op1 t) ps m in
  (forall i, In i (m1_tog m') <-> In i (m1_tog m) \/ In i (flat_map (tog_of t) ps)) /\
  m1_clone m' = m1_clone m ++ flat_map (clone_of t) ps /\ m1_kvsto m' = m1_kvsto m ++ flat_map (kvsto_of t) ps /\ m1_eref m' = m1_eref m ++ flat_map eref_of ps.
Proof.
  cbv zeta. induction ps as [|p ps IH]; intros m; cbn [fold_left flat_map]; [rewrite !app_nil_r; cbn; tauto|].
  destruct (IH (make_op1 t m p)) as (A & B & C & D). rewrite B, C, D, !app_assoc.
  assert (S : (forall i, In i (m1_tog (make_op1 t m p)) <-> In i (m1_tog m) \/ In i (tog_of t p)) /\ m1_clone (make_op1 t m p) = m1_clone m ++ clone_of t p /\
    m1_kvsto (make_op1 t m p) = m1_kvsto m ++ kvsto_of t p /\ m1_eref (make_op1 t m p) = m1_eref m ++ eref_of p).
  { clear. destruct p as [k v]. unfold make_op1, tog_of, clone_of, kvsto_of, eref_of, eref_name. cbn [fst snd].
    destruct (str_eqb k (lit ":path") || str_eqb k (lit "referer")); [|destruct (find_key (t_keys t) k) as [j|]; [destruct (find_val (t_lru t) k v) as [e|]|]];
      cbn [m1_tog m1_clone m1_kvsto m1_eref]; rewrite ?app_nil_r; (split; [|auto]); intros i; cbn [In]; try tauto. rewrite zadd_In. intuition. }
  destruct S as (S1 & S2 & S3 & S4). rewrite S2, S3, S4. split; [|auto]. intros i. rewrite A, S1, in_app_iff. tauto.
Qed.

Lemma nodup_flat {A B} (f : A -> list B) l : NoDup l -> (forall x, In x l -> NoDup (f x)) -> (forall x y b, In x l -> In y l -> In b (f x) -> In b (f y) -> x = y) -> NoDup (flat_map f l).
Proof.
  induction 1 as [|x l N1 N2 IH]; intros H1 H2; cbn [flat_map]; [constructor|].
  assert (G : forall a b : list B, NoDup a -> NoDup b -> (forall z, In z a -> ~ In z b) -> NoDup (a ++ b)).
  { clear. induction a as [|q a IH]; intros b Ha Hb D; cbn [app]; [exact Hb|]. inversion Ha as [|? ? M1 M2]; subst. constructor.
    - intros C. apply in_app_or in C as [C|C]; [contradiction|]. exact (D q (or_introl eq_refl) C).
    - apply IH; auto. intros z Hz. apply D. now right. }
  apply G; [apply H1; now left|apply IH; [intros y Hy; apply H1; now right|intros y z b Hy Hz; apply H2; now right]|].
  intros b Hb C. apply in_flat_map in C as (y & Hy & C). assert (x = y) by (apply (H2 x y b); auto; [now left|now right]). subst y. contradiction.
Qed.

Section Choice.
Context (dk : str) (iter : list gop -> list N) (Hiter : visits iter).

(** Names that are never stored are not in the table. *)
Definition all_stored (c : code1) : Prop := forall e, In e (t_lru (d_store c)) -> stored (v_key e).

Lemma stored_pop pin c c' : all_stored c -> pop_one1 dk pin c = Ok (Some c') -> all_stored c'.
Proof.
  intros H. unfold pop_one1. destruct (t_lru (d_store c)) as [|e r] eqn:E; [discriminate|]. destruct (remove_idx _ _ _); cbn [bind]; [|discriminate].
  intros X. injection X as <-. intros x Hx. cbn [d_store t_lru] in Hx. apply H. rewrite E. now right.
Qed.
Lemma stored_loop pin adding fuel : forall c c' b, all_stored c -> space_loop fuel dk pin adding c = Ok (c', b) -> all_stored c'.
Proof.
  induction fuel as [|f IH]; intros c c' b H; cbn [space_loop]; (destruct (_ <? _); [|intros E; injection E as <- _; exact H]);
    (destruct (pop_one1 dk pin c) as [[c1|]|] eqn:P; cbn [bind]; [|intros E; injection E as <- _; exact H|discriminate]); [discriminate|].
  apply IH. exact (stored_pop pin c c1 H P).
Qed.
Lemma stored_space pin c sp adding c' : all_stored c -> make_space dk pin c sp adding = Ok c' -> all_stored c'.
Proof.
  intros H. unfold make_space. destruct (space_loop _ _ _ _ _) as [[c1 b]|] eqn:E; cbn [bind]; [|discriminate].
  destruct (_ && _); [discriminate|]. intros X. injection X as <-. exact (stored_loop _ _ _ _ _ _ H E).
Qed.
Lemma stored_toggle c gid i c' : all_stored c -> do_toggle c gid i = Ok c' -> all_stored c'.
Proof.
  intros H. unfold do_toggle. destruct (look _ _); cbn [bind]; [|discriminate]. destruct (gget _ _); [|discriminate]. intros E. injection E as <-.
  intros x Hx. cbn [d_store set_lru t_lru] in Hx. apply at_idx_in in Hx as (e & He & ->). destruct (v_idx e =? i); exact (H e He).
Qed.
Lemma stored_toggles gid is : forall c c', all_stored c -> do_toggles c gid is = Ok c' -> all_stored c'.
Proof.
  induction is as [|i r IH]; intros c c' H; cbn [do_toggles]; [intros E; now injection E as <-|].
  destruct (do_toggle c gid i) as [c1|] eqn:E; cbn [bind]; [|discriminate]. apply IH. exact (stored_toggle _ _ _ _ H E).
Qed.
Lemma stored_pair gid c k v c' : all_stored c -> stored k -> store_pair dk gid c (k, v) = Ok c' -> all_stored c'.
Proof.
  intros H Hk. unfold store_pair, find_or_add_key.
  assert (S1 : forall c1, match find_key (t_keys (d_store c)) k with
    | Some _ => Ok c
    | None => let* c0 := make_space dk None c (Z.of_nat (length k)) 0 in
        let t := d_store c0 in
        let* i := unused_id (fun i => match find_kidx (t_kidx t) i with Some _ => true | None => false end) 0 (t_kid t) in
        Ok (mk_code1 (mk_store1 (t_keys t ++ [(k, i)]) (t_kidx t ++ [(i, k)]) i (t_lid t) (t_size t + Z.of_nat (length k))
            (t_num t) (t_maxv t) (t_maxb t) (t_lru t)) (d_groups c0)) end = Ok c1 -> all_stored c1).
  { intros c1. destruct (find_key _ k); [intros E; now injection E as <-|]. destruct (make_space _ _ _ _ _) as [c0|] eqn:E; cbn [bind]; [|discriminate].
    cbv zeta. destruct (unused_id _ _ _); cbn [bind]; [|discriminate]. intros X. injection X as <-. exact (stored_space _ _ _ _ _ H E). }
  destruct (match find_key _ k with Some _ => _ | None => _ end) as [c1|]; cbn [bind]; [|discriminate]. specialize (S1 c1 eq_refl).
  destruct (find_val _ k v); [intros E; now injection E as <-|]. destruct (make_space _ _ c1 _ _) as [c2|] eqn:E2; cbn [bind]; [|discriminate]. cbv zeta.
  pose proof (stored_space _ _ _ _ _ S1 E2) as S2. destruct (unused_id _ _ _) as [i|]; cbn [bind]; [|discriminate]. apply stored_toggle.
  intros x Hx. cbn [d_store t_lru] in Hx. apply in_app_or in Hx as [Hx|[<-|[]]]; [now apply S2|exact Hk].
Qed.
Lemma stored_pairs gid ps : forall c c', all_stored c -> Forall (fun p => stored (fst p)) ps -> store_pairs dk gid c ps = Ok c' -> all_stored c'.
Proof.
  induction ps as [|[k v] r IH]; intros c c' H F; cbn [store_pairs]; [intros E; now injection E as <-|]. inversion F as [|? ? F1 F2]; subst.
  destruct (store_pair dk gid c (k, v)) as [c1|] eqn:E; cbn [bind]; [|discriminate]. apply IH; [|exact F2]. exact (stored_pair _ _ _ _ _ H F1 E).
Qed.
Lemma stored_renumber gid c i c' : all_stored c -> renumber iter gid c i = Ok c' -> all_stored c'.
Proof.
  intros H. unfold renumber. cbv zeta. destruct (look _ _) as [e|] eqn:El; cbn [bind]; [|discriminate]. destruct (remove_idx _ _ _); cbn [bind]; [|discriminate].
  destruct (unused_id _ _ _); cbn [bind]; [|discriminate]. destruct (gget _ _); [|discriminate]. intros E. injection E as <-.
  intros x Hx. cbn [d_store t_lru] in Hx. apply in_app_or in Hx as [Hx|[<-|[]]]; [apply filter_In in Hx as [Hx _]; now apply H|]. cbn [v_key]. apply H. now apply look_live in El.
Qed.
Lemma stored_adjust gid c c' : all_stored c -> adjust1 iter c gid = Ok c' -> all_stored c'.
Proof.
  unfold adjust1. destruct (gget _ _) as [z|]; [|discriminate]. revert c. induction z as [|i r IH]; intros c H; cbn [renumber_all]; [intros E; now injection E as <-|].
  destruct (renumber iter gid c i) as [c1|] eqn:E; cbn [bind]; [|discriminate]. apply IH. exact (stored_renumber _ _ _ _ H E).
Qed.

Lemma compress_stored h o c d gid c' blob : inv1 dk c -> order1_ok o -> (forall v, ~ In (dk, v) d) -> all_stored c -> compress1 dk iter h o c d gid = Ok (c', blob) -> all_stored c'.
Proof.
  intros I Ho Hdk H. unfold compress1. rewrite <- make1_find. set (c0 := mk_code1 (d_store c) (find_or_make (d_groups c) gid)).
  pose proof (inv1_find dk c gid I) as I0. fold c0 in I0. destruct (find_or_make_get (d_groups c) gid) as (z & Hz). assert (Hg : gget (d_groups c0) gid = Some z) by exact Hz.
  destruct (make1_ok dk iter o c0 d gid z I0 Hg Ho Hdk) as (i & on & later & c1 & PL & Ed & _ & _ & _ & Em). rewrite Em.
  destruct (store_pairs dk gid c1 later) as [c2|] eqn:E2; cbn [bind]; [|discriminate]. destruct (adjust1 iter c2 gid) as [c3|] eqn:E3; cbn [bind]; [|discriminate].
  destruct (to_wire1 h i gid) as [b|]; cbn [bind]; [|discriminate]. intros E. assert (c3 = c') as <- by congruence.
  apply (stored_adjust gid c2 c3); [|exact E3]. apply (stored_pairs gid later c1 c2); [|exact (pl_stored _ _ _ _ _ _ PL)|exact E2]. exact (stored_toggles gid _ c0 c1 H Ed).
Qed.

Lemma session_stored h maxb maxv kind c d : coder1 h -> session1 dk iter h maxb maxv kind c d -> all_stored c.
Proof.
  intros Hh S. induction S as [|c d m c' d' blob out S IH Hm _ E1 Hl E2]; [intros e []|].
  destruct (session1_inv _ _ _ _ _ _ _ _ Hiter Hh S) as (_ & I & _). destruct Hm as [M1 M2 _ M4 M5 M6]. exact (compress_stored _ _ _ _ _ _ _ I M5 M2 IH E1).
Qed.

(** What the receiver reads. *)
Lemma sent_ops table h o c d gid c' i c2 blob : d1_huffman table = Ok h -> In 256%N (map fst table) ->
  inv1 dk c -> bounded 128 (d_groups c) -> order1_ok o -> headers_bytes d -> (gid < 256)%N -> (forall v, ~ In (dk, v) d) -> (length (headers_set d) <= 128)%nat ->
  make_operations1 dk iter o c d gid = Ok (c', i) -> compress1 dk iter h o c d gid = Ok (c2, blob) -> (N.of_nat (length blob) <= 65536)%N ->
  NoDup (i_toggl i) /\ from_wire1 h blob = Ok (gid, flat_map snd (wire_kinds i)).
Proof.
  intros Eh Ht I Hb Ho Hby Hgid Hdk Hlen Emk. unfold compress1. rewrite Emk. cbn [bind]. rewrite <- make1_find in Emk.
  set (c0 := mk_code1 (d_store c) (find_or_make (d_groups c) gid)) in *.
  pose proof (inv1_find dk c gid I) as I0. fold c0 in I0. destruct (find_or_make_get (d_groups c) gid) as (z & Hz). assert (Hg : gget (d_groups c0) gid = Some z) by exact Hz.
  assert (Hb0 : bounded 128 (d_groups c0)) by (now apply bounded_find).
  destruct (make1_ok dk iter o c0 d gid z I0 Hg Ho Hdk) as (i' & on & later & c1 & PL & Ed & I1 & SB & G1 & Em). rewrite Em in Emk.
  destruct (store_pairs dk gid c1 later) as [cc|] eqn:E2; cbn [bind] in Emk; [|discriminate]. destruct (adjust1 iter cc gid) as [c3|] eqn:E3; cbn [bind] in Emk; [|discriminate].
  assert (i' = i) by congruence. subst i'. destruct (to_wire1 h i gid) as [b|] eqn:Eb; cbn [bind]; [|discriminate]. intros E. assert (Ebl : b = blob) by congruence. subst b. clear E.
  intros Hl. split; [exact (pl_nodup _ _ _ _ _ _ PL)|].
  pose proof (plan_fits dk c0 z d i on later I0 PL Hby) as Hf. destruct (plan_lengths _ _ _ _ _ _ PL) as (L1 & L2 & L3 & L4).
  assert (L5 : (length (i_toggl i) <= 256)%nat) by (pose proof (pl_count _ _ _ _ _ _ PL); specialize (Hb0 gid z Hg); lia).
  rewrite listing_kinds. destruct (toggle_ranges (i_toggl i)) as [singles ranges] eqn:Et. cbn [fst snd].
  destruct (C42_roundtrip table h Eh Ht i gid blob Hf Hgid) as (ops & Er & _); try lia; auto. rewrite Er. do 2 f_equal.
  destruct (few_toggles _ L5) as [Ha Hb']. rewrite Et in Ha, Hb'. cbn [fst snd] in Ha, Hb'.
  destruct (C42_exactly table h Eh Ht i gid blob Hf Hgid Eb Hl singles ranges Et) as [_ X]. destruct X as (g & X); [repeat split; auto; lia|]. congruence.
Qed.

Lemma reads_kv1 c i n v : inv1 dk c -> reads1 c i n v <-> live1 c i /\ kv1 (t_lru (d_store c)) i = (n, v).
Proof.
  intros I. unfold reads1, entries1. rewrite in_map_iff. split.
  - intros (e & E & He). assert (v_idx e = i /\ v_key e = n /\ v_val e = v) as (<- & <- & <-) by (repeat split; congruence).
    split; [now exists e|]. unfold kv1. now rewrite (find_idx_in _ _ (ti_ids _ _ (in_t _ _ I)) He).
  - intros [L E]. destruct (kv1_look dk c i I L) as (e & _ & Ek & He & <-). exists e. split; [|exact He]. rewrite Ek in E. unfold pair_of in E. congruence.
Qed.

Lemma make_chosen1 names o c d gid c' i : inv1 dk c -> all_stored c -> in_order dk names c -> order1_ok o -> (forall v, ~ In (dk, v) d) ->
  NoDup (i_toggl i) -> make_operations1 dk iter o c d gid = Ok (c', i) -> chosen1 names c gid d (flat_map snd (wire_kinds i)).
Proof.
  intros I Hst [Hord Hnd] [O1 O2 O3 O4] Hdk Hnt. unfold make_operations1. cbv zeta. set (t := d_store c) in *. set (l := t_lru t) in *.
  assert (Kk : t_keys t = from 1 (dk :: names)) by (unfold kn in Hord; fold t in Hord; congruence).
  set (z := cur_of (find_or_make (d_groups c) gid) gid).
  assert (Zg : forall x, In x z <-> in_group1 c gid x).
  { intros x. unfold z, cur_of, find_or_make, in_group1. destruct (gget (d_groups c) gid) as [y|] eqn:E.
    - rewrite E. split; [intros H; now exists y|intros (y' & H1 & H2); congruence].
    - rewrite gget_gset. split; [contradiction|intros (y' & H1 & _); discriminate]. }
  assert (Hz : zsorted z).
  { unfold z, cur_of, find_or_make. destruct (gget (d_groups c) gid) as [y|] eqn:E; [rewrite E; exact (sy_sorted _ _ (in_g _ _ I) gid y E)|rewrite gget_gset; constructor]. }
  assert (Lz : Forall (live1 c) z).
  { apply Forall_forall. intros x Hx. apply Zg in Hx as (y & E & Hx). pose proof (group_live dk c gid y I E) as F. rewrite Forall_forall in F. auto. }
  destruct (headers_set_ok d) as [Hn Hin].
  destruct (keep1_ok dk c I (r1_group o z) (headers_set d) []) as (hs & done & kept & E & Z1 & Z2 & Z3 & Z4 & Z5).
  { eapply Permutation_NoDup; [symmetry; apply O1|now apply zsorted_NoDup]. }
  { eapply Permutation_Forall; [symmetry; apply O1|exact Lz]. }
  { exact Hn. }
  { constructor. }
  fold t in E, Z4, Z5. fold l in E, Z4, Z5. rewrite E. cbn [bind]. set (ps := r1_headers o hs). destruct (fold_made t ps (mk_m1 [] [] [] [])) as (F1 & F2 & F3 & F4).
  set (m := fold_left (make_op1 t) ps (mk_m1 [] [] [] [])) in *. cbn [m1_tog m1_clone m1_kvsto m1_eref app] in F1, F2, F3, F4.
  destruct (execute1 _ _ _ _ _) as [[c1 x]|]; cbn [bind]; [|discriminate]. destruct (adjust1 _ _ _) as [c2|]; cbn [bind]; [|discriminate].
  intros Ei. assert (Hi : i = mk_instr (r1_toggl o (zunion (m1_tog m) done)) (m1_clone m) (m1_kvsto m) (m1_eref m)) by congruence. clear Ei.
  assert (Gz : forall x, In x (r1_group o z) <-> In x z) by (intros x0; split; apply Permutation_in; [|symmetry]; apply O1).
  (* a pair is left exactly when it is carried and no visible entry reads it *)
  assert (Nps : NoDup ps).
  { eapply Permutation_NoDup; [symmetry; apply O2|]. assert (X : NoDup (map (kv1 l) kept ++ hs)) by (eapply Permutation_NoDup; [exact Z4|exact Hn]). now apply NoDup_app_r in X. }
  assert (Hps : forall n v, In (n, v) ps <-> carries d n v /\ forall j, In j z -> kv1 l j <> (n, v)).
  { intros n v. rewrite carries_pairs. transitivity (In (n, v) hs); [split; apply Permutation_in; [|symmetry]; apply O2|]. split.
    - intros H. split; [eapply Permutation_in; [symmetry; exact Z4|]; apply in_or_app; now right|]. intros j Hj C. apply (Z5 j); [now apply Gz|now rewrite C].
    - intros [H1 H2]. apply (Permutation_in _ Z4) in H1. apply in_app_or in H1 as [H1|H1]; [|exact H1]. exfalso. apply in_map_iff in H1 as (j & Ej & Hj). apply (H2 j); [apply Gz; now apply Z2|exact Ej]. }
  assert (Hkept : forall x, In x z -> (In x kept <-> In (kv1 l x) (headers_set d))).
  { intros x0 Hx. split.
    - intros H. eapply Permutation_in; [symmetry; exact Z4|]. apply in_or_app. left. now apply in_map.
    - intros H. apply (Permutation_in _ Z4) in H. apply in_app_or in H as [H|H]; [|exfalso; apply (Z5 x0); [now apply Gz|exact H]].
      apply in_map_iff in H as (j & Ej & Hj). assert (j = x0) as <-; [|exact Hj]. rewrite Forall_forall in Lz.
      apply (kv1_inj dk c j x0 I); [apply Lz; apply Gz; now apply Z2|now apply Lz|exact Ej]. }
  (* names *)
  assert (Ndk : forall n v, In (n, v) ps -> n <> dk).
  { intros n v H ->. apply Hps in H as [(w & ? & Hw & _) _]. exact (Hdk w Hw). }
  assert (Kn : forall n, n <> dk -> (find_key (t_keys t) n = None <-> ~ In n names)).
  { intros n H. rewrite Kk. rewrite find_from. cbn [In]. intuition congruence. }
  assert (Ks : forall n j, n <> dk -> (find_key (t_keys t) n = Some j <-> numbered names j n)).
  { intros n j H. rewrite Kk. cbn [from find_key]. destruct (str_eqb_spec dk n) as [C|_]; [congruence|]. split; [apply find_from_some|].
    intros [Hj En]. destruct (find_key (from (1 + 1) names) n) as [j'|] eqn:Ef.
    - apply find_from_some in Ef as [Hj' En']. f_equal. inversion Hnd as [|? ? _ Nn]; subst.
      assert (Z.to_nat (j' - (1 + 1)) = Z.to_nat (j - 2)); [|lia]. rewrite NoDup_nth_error in Nn. apply Nn; [apply nth_error_Some; congruence|congruence].
    - apply find_from in Ef. exfalso. apply Ef. eapply nth_error_In. exact En. }
  assert (Ev : forall n v, In (n, v) ps -> (find_val l n v = None <-> forall j, ~ reads1 c j n v)).
  { intros n v H. split.
    - intros E1 j R. unfold reads1, entries1 in R. fold t in R. fold l in R. apply in_map_iff in R as (e & Ee & He). apply (find_val_none _ _ _ E1 e He). unfold pair_of. congruence.
    - intros R. destruct (find_val l n v) as [e|] eqn:E1; [|reflexivity]. apply find_val_some in E1 as [He Ep]. exfalso. apply (R (v_idx e)).
      unfold reads1, entries1. fold t. fold l. apply in_map_iff. exists e. split; [unfold pair_of in Ep; congruence|exact He]. }
  (* toggles *)
  assert (Ht : forall x, In x (i_toggl i) <-> flips c gid d x).
  { intros x0. rewrite Hi. cbn [i_toggl]. transitivity (In x0 (zunion (m1_tog m) done)); [split; apply Permutation_in; [|symmetry]; apply O3|].
    rewrite zunion_In, F1, Z3. cbn [In]. unfold flips. split.
    - intros [[[]|H]|[[]|[H1 H2]]].
      + apply in_flat_map in H as ([n v] & Hp & H). unfold tog_of in H. cbn [fst snd] in H. destruct (eref_name n); [contradiction|]. destruct (find_key _ n); [|contradiction].
        fold l in H. destruct (find_val l n v) as [e|] eqn:Ef; [|contradiction]. destruct H as [<-|[]]. apply find_val_some in Ef as [He Ep].
        exists n, v. assert (R : reads1 c (v_idx e) n v). { unfold reads1, entries1. apply in_map_iff. exists e. split; [unfold pair_of in Ep; congruence|exact He]. }
        split; [exact R|]. right. apply Hps in Hp as [Hc Hv]. split; [|exact Hc]. intros C. apply Zg in C. apply (Hv _ C). apply reads_kv1 in R; [apply R|exact I].
      + apply Gz in H1 as Hz1. rewrite Forall_forall in Lz. pose proof (Lz _ Hz1) as Lx. destruct (kv1 l x0) as [n v] eqn:Ek. exists n, v. split; [apply reads_kv1; auto|]. left.
        split; [now apply Zg|]. intros C. apply H2. apply Hkept; [exact Hz1|]. rewrite Ek. now apply carries_pairs.
    - intros (n & v & R & [[G C]|[G C]]).
      + right. right. apply Zg in G. split; [now apply Gz|]. intros K. apply Hkept in K; [|exact G]. apply reads_kv1 in R as [_ R]; [|exact I]. fold t in R. fold l in R. rewrite R in K. apply C. now apply carries_pairs.
      + left. right. pose proof R as R0. apply reads_kv1 in R as [Lx R]; [|exact I]. fold t in R. fold l in R.
        assert (Hp : In (n, v) ps).
        { apply Hps. split; [exact C|]. intros j Hj Ej. apply G, Zg. rewrite Forall_forall in Lz. rewrite (kv1_inj dk c x0 j I Lx (Lz j Hj)); [exact Hj|]. fold t. fold l. congruence. }
        apply in_flat_map. exists (n, v). split; [exact Hp|]. unfold tog_of. cbn [fst snd]. unfold reads1, entries1 in R0. apply in_map_iff in R0 as (e & Ee & He).
        assert (v_idx e = x0 /\ v_key e = n /\ v_val e = v) as (<- & <- & <-) by (repeat split; congruence).
        pose proof (Hst e He) as Se. apply eref_name_false in Se. rewrite Se. pose proof (ti_known _ _ (in_t _ _ I) e He) as Ke. fold t in Ke. destruct (find_key (t_keys t) (v_key e)); [|congruence].
        fold l. destruct (find_val l (v_key e) (v_val e)) as [e'|] eqn:Ef; [|exfalso; exact (find_val_none _ _ _ Ef e He eq_refl)]. left.
        apply find_val_some in Ef as [He' Ep]. f_equal. apply (nodup_map_eq pair_of l); [exact (ti_pairs _ _ (in_t _ _ I))|exact He'|exact He|exact Ep]. }
  rewrite listing_kinds. destruct (toggle_ranges (i_toggl i)) as [ot otr] eqn:Et. destruct (toggle_runs _ _ _ Hnt Et) as (N1 & N2 & R1 & R2). cbn [fst snd]. unfold listing.
  assert (A1 : forall i0, alone (fun x => In x (i_toggl i)) i0 <-> alone (flips c gid d) i0) by (intros i0; unfold alone; now rewrite !Ht).
  assert (A2 : forall l0 s0, run_of (fun x => In x (i_toggl i)) l0 s0 <-> run_of (flips c gid d) l0 s0).
  { intros l0 s0. unfold run_of. rewrite !Ht. split; intros (X1 & X2 & X3); (split; [exact X1|]; split; [|exact X3]); intros q Hq; apply Ht; now apply X2. }
  assert (Icl : i_clone i = flat_map (clone_of t) ps) by (rewrite Hi; exact F2). assert (Ikv : i_kvsto i = flat_map (kvsto_of t) ps) by (rewrite Hi; exact F3). assert (Ier : i_eref i = flat_map eref_of ps) by (rewrite Hi; exact F4).
  assert (Ncl : NoDup (i_clone i)).
  { rewrite Icl. apply nodup_flat; [exact Nps| |].
    - intros [n v] _. unfold clone_of. cbn [fst snd]. destruct (eref_name n); [constructor|]. destruct (find_key _ n); [|constructor]. destruct (find_val _ n v); [constructor|]. constructor; [intros []|constructor].
    - intros [n v] [n' v'] b Hp Hp'. unfold clone_of. cbn [fst snd]. destruct (eref_name n); [contradiction|]. destruct (eref_name n'); [contradiction|].
      destruct (find_key _ n) as [k|] eqn:En; [|contradiction]. destruct (find_key _ n') as [k'|] eqn:En'; [|contradiction]. destruct (find_val _ n v); [contradiction|]. destruct (find_val _ n' v'); [contradiction|].
      intros [<-|[]] [X|[]]. assert (k' = k) by congruence. assert (v' = v) by congruence. subst k' v'. f_equal.
      apply Ks in En as [_ En]; [|exact (Ndk _ _ Hp)]. apply Ks in En' as [_ En']; [|exact (Ndk _ _ Hp')]. congruence. }
  assert (Nkv : NoDup (i_kvsto i)).
  { rewrite Ikv. apply nodup_flat; [exact Nps| |].
    - intros [n v] _. unfold kvsto_of. cbn [fst]. destruct (eref_name n); [constructor|]. destruct (find_key _ n); [constructor|]. constructor; [intros []|constructor].
    - intros p q b _ _. unfold kvsto_of. destruct (eref_name (fst p)); [contradiction|]. destruct (eref_name (fst q)); [contradiction|].
      destruct (find_key _ (fst p)); [contradiction|]. destruct (find_key _ (fst q)); [contradiction|]. intros [<-|[]] [<-|[]]. reflexivity. }
  assert (Ner : NoDup (i_eref i)).
  { rewrite Ier. apply nodup_flat; [exact Nps| |].
    - intros [n v] _. unfold eref_of. cbn [fst]. destruct (eref_name n); [|constructor]. constructor; [intros []|constructor].
    - intros p q b _ _. unfold eref_of. destruct (eref_name (fst p)); [|contradiction]. destruct (eref_name (fst q)); [|contradiction]. intros [<-|[]] [<-|[]]. reflexivity. }
  assert (Nmap : forall A (f : A -> op1) q, (forall a b, f a = f b -> a = b) -> NoDup q -> NoDup (map f q)) by (intros A f q Hf; apply FinFun.Injective_map_NoDup; exact Hf).
  assert (Napp : forall a b : list op1, NoDup a -> NoDup b -> (forall q, In q a -> ~ In q b) -> NoDup (a ++ b)).
  { clear. induction a as [|q a IH]; intros b Ha Hb D; cbn [app]; [exact Hb|]. inversion Ha as [|? ? M1 M2]; subst. constructor.
    - intros C. apply in_app_or in C as [C|C]; [contradiction|]. exact (D q (or_introl eq_refl) C).
    - apply IH; auto. intros w Hw. apply D. now right. }
  split.
  - repeat apply Napp.
    + apply Nmap; [intros a b X; congruence|exact N1].
    + apply Nmap; [intros [] [] X; congruence|exact N2].
    + apply Nmap; [intros [] [] X; congruence|exact Ncl].
    + apply Nmap; [intros [] [] X; congruence|exact Nkv].
    + apply Nmap; [intros [] [] X; congruence|exact Ner].
    + intros q Hq C. apply in_map_iff in Hq as ([] & <- & _). apply in_map_iff in C as ([] & C & _). discriminate.
    + intros q Hq C. apply in_map_iff in Hq as ([] & <- & _). apply in_app_or in C as [C|C]; apply in_map_iff in C as ([] & C & _); discriminate.
    + intros q Hq C. apply in_map_iff in Hq as ([] & <- & _). repeat (apply in_app_or in C as [C|C]); apply in_map_iff in C as ([] & C & _); discriminate.
    + intros q Hq C. apply in_map_iff in Hq as (a & <- & _). repeat (apply in_app_or in C as [C|C]); apply in_map_iff in C as ([] & C & _); discriminate.
  - intros i0. rewrite <- A1, <- R1. rewrite !in_app_iff. split.
    + intros [H|[H|[H|[H|H]]]]; apply in_map_iff in H as (a & H & Ha); try (destruct a; discriminate). congruence.
    + intros H. left. now apply in_map.
  - intros l0 s0. rewrite <- A2, <- R2. rewrite !in_app_iff. split.
    + intros [H|[H|[H|[H|H]]]]; apply in_map_iff in H as (a & H & Ha); try discriminate; try (destruct a; discriminate). destruct a. congruence.
    + intros H. right. left. apply in_map_iff. now exists (s0, l0).
  - intros i0 v0. transitivity (In (i0, v0) (i_clone i)).
    { rewrite !in_app_iff. split.
      - intros [H|[H|[H|[H|H]]]]; apply in_map_iff in H as (a & H & Ha); try discriminate; try (destruct a; discriminate). destruct a. congruence.
      - intros H. right. right. left. apply in_map_iff. now exists (i0, v0). }
    rewrite Icl, in_flat_map. split.
    + intros ([n v] & Hp & H). unfold clone_of in H. cbn [fst snd] in H. destruct (eref_name n) eqn:En; [contradiction|]. apply eref_name_false in En.
      destruct (find_key _ n) as [k|] eqn:Ek; [|contradiction]. fold l in H. destruct (find_val l n v) eqn:Ef; [contradiction|]. destruct H as [H|[]].
      assert (k = i0) by congruence. assert (v = v0) by congruence. subst k v. exists n. split; [apply Ks; [exact (Ndk _ _ Hp)|exact Ek]|]. split; [exact En|]. split; [now apply Hps|]. now apply Ev.
    + intros (n & Hm & Hs & Hc & Hr). assert (Hp : In (n, v0) ps).
      { apply Hps. split; [exact Hc|]. intros j Hj Ej. apply (Hr j). apply reads_kv1; [exact I|]. rewrite Forall_forall in Lz. split; [now apply Lz|exact Ej]. }
      exists (n, v0). split; [exact Hp|]. unfold clone_of. cbn [fst snd]. apply eref_name_false in Hs. rewrite Hs. apply Ks in Hm; [|exact (Ndk _ _ Hp)]. rewrite Hm.
      apply (Ev _ _ Hp) in Hr. fold l. rewrite Hr. now left.
  - intros n v. transitivity (In (n, v) (i_kvsto i)).
    { rewrite !in_app_iff. split.
      - intros [H|[H|[H|[H|H]]]]; apply in_map_iff in H as (a & H & Ha); try discriminate; try (destruct a; discriminate). destruct a. congruence.
      - intros H. right. right. right. left. apply in_map_iff. now exists (n, v). }
    rewrite Ikv, in_flat_map. split.
    + intros ([n' v'] & Hp & H). unfold kvsto_of in H. cbn [fst] in H. destruct (eref_name n') eqn:En; [contradiction|]. apply eref_name_false in En.
      destruct (find_key _ n') eqn:Ek; [contradiction|]. destruct H as [H|[]]. assert (n' = n) by congruence. assert (v' = v) by congruence. subst n' v'.
      split; [apply Kn; [exact (Ndk _ _ Hp)|exact Ek]|]. split; [exact En|now apply Hps].
    + intros (Hnn & Hs & Hc). assert (Dn : n <> dk) by (intros ->; destruct Hc as (w & ? & Hw & _); exact (Hdk w Hw)).
      apply Kn in Hnn; [|exact Dn]. exists (n, v). split.
      * apply Hps. split; [exact Hc|]. intros j Hj Ej. rewrite Forall_forall in Lz. destruct (kv1_look dk c j I (Lz j Hj)) as (e & _ & Ee & He & _).
        fold t in Ee. fold l in Ee. rewrite Ej in Ee. apply (ti_known _ _ (in_t _ _ I) e He). fold t. unfold pair_of in Ee. replace (v_key e) with n by congruence. exact Hnn.
      * unfold kvsto_of. cbn [fst]. apply eref_name_false in Hs. rewrite Hs, Hnn. now left.
  - intros n v. transitivity (In (n, v) (i_eref i)).
    { rewrite !in_app_iff. split.
      - intros [H|[H|[H|[H|H]]]]; apply in_map_iff in H as (a & H & Ha); try discriminate; try (destruct a; discriminate). destruct a. congruence.
      - intros H. do 4 right. apply in_map_iff. now exists (n, v). }
    rewrite Ier, in_flat_map. split.
    + intros ([n' v'] & Hp & H). unfold eref_of in H. cbn [fst] in H. destruct (eref_name n') eqn:En; [|contradiction]. apply eref_name_true in En.
      destruct H as [H|[]]. assert (n' = n) by congruence. assert (v' = v) by congruence. subst n' v'. split; [exact En|now apply Hps].
    + intros (Hs & Hc). exists (n, v). split.
      * apply Hps. split; [exact Hc|]. intros j Hj Ej. rewrite Forall_forall in Lz. destruct (kv1_look dk c j I (Lz j Hj)) as (e & _ & Ee & He & _).
        fold t in Ee. fold l in Ee. rewrite Ej in Ee. destruct (Hst e He) as [S1 S2]. unfold pair_of in Ee. assert (v_key e = n) by congruence. destruct Hs; congruence.
      * unfold eref_of. cbn [fst]. apply eref_name_true in Hs. rewrite Hs. now left.
Qed.
End Choice.
