(** * Which instructions delta2's compressor chooses. *)
From Coq Require Import String List NArith ZArith Bool Arith Lia Permutation.
From Verif Require Import PyBase PyStr Lib_Model Lib_Spec Lib_Proofs D2Huff_Model D2Store_Model D2Store_Proofs Prop_D2Store D2Wire_Model Prop_D2Wire
  D2Code_Model Prop_D2Ranges D2Code_Sets D2Code_Store D2Code_Exec D2Code_Make D2Code_Round D2Code_Says.
Import ListNotations.
Open Scope Z_scope.
Open Scope py_scope.

(** ** Specification *)

(** The entries an index can mean, as numbers and texts: the dynamic table from
    the newest entry to the oldest one and then the static table from its end. *)
Definition text (e : entry) : Z * (str * str) := (snd e, (kv_key (fst e), kv_val (fst e))).
Definition entries (k : code) : list (Z * (str * str)) :=
  map text (rev (l_ring (s_lru (k_store k))) ++ rev (l_ring (s_static (k_store k)))).
Definition reads (k : code) (i : Z) (p : str * str) : Prop := In (i, p) (entries k).

(** The first entry of the list whose text meets the condition has the number [i]. *)
Definition first_entry (k : code) (P : str * str -> Prop) (i : Z) : Prop :=
  exists a p b, entries k = a ++ (i, p) :: b /\ P p /\ forall x, In x a -> ~ P (snd x).

(** The number [w] in an instruction means the entry [i]. *)
Definition means (o : options) (k : code) (w i : Z) : Prop :=
  if o_idx_from_end o then 0 <= w /\ exists p, nth_error (entries k) (Z.to_nat w) = Some (i, p) else w = i.
Inductive means_op (o : options) (k : code) : op -> op -> Prop :=
| means_toggle e w i : means o k w i -> means_op o k (OToggl e w) (OToggl e i)
| means_range e w i w' i' : means o k w i -> means o k w' i' -> means_op o k (OTrang e w w') (OTrang e i i')
| means_clone e w i v : means o k w i -> means_op o k (OClone e w v) (OClone e i v)
| means_store e n v : means_op o k (OKvsto e n v) (OKvsto e n v).

(** The entries which are visible in a header group. *)
Definition in_group (k : code) (gid : N) (i : Z) : Prop := exists z, gget (k_groups k) gid = Some z /\ In i z.

(** A pair of the message that no visible entry reads. *)
Definition wanted (k : code) (gid : N) (d : hdict) (n v : str) : Prop :=
  carries d n v /\ forall i, in_group k gid i -> ~ reads k i (n, v).

(** The visible entries which stay: one for every pair of the message that some
    visible entry reads, and no other. *)
Definition stays (k : code) (gid : N) (d : hdict) (kept : list Z) : Prop :=
  (forall i, In i kept -> in_group k gid i /\ exists n v, reads k i (n, v) /\ carries d n v) /\
  (forall i j p, In i kept -> In j kept -> reads k i p -> reads k j p -> i = j) /\
  (forall i n v, in_group k gid i -> reads k i (n, v) -> carries d n v -> exists j, In j kept /\ reads k j (n, v)).

(** A set of toggles as single ones and ranges. *)
Definition written (e : bool) (T : list Z) (ops : list op) : Prop :=
  ((joins T <= 2)%nat -> (forall i, In (OToggl e i) ops <-> In i T) /\ forall last start, ~ In (OTrang e last start) ops) /\
  ((2 < joins T)%nat -> (forall i, In (OToggl e i) ops <-> alone (fun z => In z T) i) /\
                        forall last start, In (OTrang e last start) ops <-> run_of (fun z => In z T) last start).

Record chosen (o : options) (k : code) (gid : N) (d : hdict) (ops : list op) : Prop := {
  ch_once : NoDup ops;
  (** toggles that last: entries leaving the group, and entries joining it *)
  ch_lasting : exists kept T, stays k gid d kept /\ NoDup T /\ written false T ops /\
    forall i, In i T <-> (in_group k gid i /\ ~ In i kept) \/
                         (o_only_etoggles o = false /\ exists n v, wanted k gid d n v /\ first_entry k (eq (n, v)) i);
  (** toggles for this message only *)
  ch_passing : exists T, NoDup T /\ written true T ops /\
    forall i, In i T <-> o_only_etoggles o = true /\ exists n v, wanted k gid d n v /\ first_entry k (eq (n, v)) i;
  (** a new value for a known name *)
  ch_values : forall e i v, In (OClone e i v) ops <->
    exists n, wanted k gid d n v /\ (forall j, ~ reads k j (n, v)) /\ first_entry k (fun p => fst p = n) i /\ (e = true <-> n = lit ":path");
  (** a new name *)
  ch_names : forall e n v, In (OKvsto e n v) ops <-> e = false /\ wanted k gid d n v /\ forall j w, ~ reads k j (n, w) }.

(** ** Finding *)

Definition first_of (T : list entry) (P : str * str -> Prop) (i : Z) : Prop :=
  exists a e b, T = a ++ (e, i) :: b /\ P (kv_key e, kv_val e) /\ forall x, In x a -> ~ P (snd (text x)).

Definition table (s : storage) : list entry := rev (l_ring (s_lru s)) ++ rev (l_ring (s_static s)).

Lemma first_entry_of k P i : first_of (table (k_store k)) P i <-> first_entry k P i.
Proof.
  unfold first_entry, entries. fold (table (k_store k)). generalize (table (k_store k)). intros T. split.
  - intros (a & e & b & -> & H1 & H2). exists (map text a), (kv_key e, kv_val e), (map text b). split; [rewrite map_app; reflexivity|]. split; [exact H1|].
    intros x Hx. apply in_map_iff in Hx as (y & <- & Hy). now apply H2.
  - intros (a & p & b & E & H1 & H2). apply map_eq_app in E as (a' & b' & -> & <- & E). destruct b' as [|[e q] b']; [discriminate|]. cbn [map] in E.
    assert (Eq : q = i) by (assert (X : text (e, q) = (i, p)) by congruence; unfold text in X; cbn [fst snd] in X; congruence).
    assert (Ep : (kv_key e, kv_val e) = p) by (assert (X : text (e, q) = (i, p)) by congruence; unfold text in X; cbn [fst snd] in X; congruence).
    subst q p. exists a', e, b'. split; [reflexivity|]. split; [exact H1|]. intros x Hx. apply H2. now apply in_map.
Qed.

Lemma first_of_unique T P i j : first_of T P i -> first_of T P j -> i = j.
Proof.
  intros (a & e & b & E & H1 & H2) (a' & e' & b' & E' & H1' & H2'). rewrite E in E'. clear E. revert a' E' H2'.
  induction a as [|x a IH]; intros [|x' a'] E' H2'; cbn [app] in E'.
  - congruence.
  - exfalso. apply (H2' x'); [now left|]. assert (X : (e, i) = x') by congruence. rewrite <- X. exact H1.
  - exfalso. apply (H2 x); [now left|]. assert (X : x = (e', j)) by congruence. rewrite X. exact H1'.
  - apply (IH ltac:(intros y Hy; apply H2; now right) a'); [congruence|]. intros y Hy. apply H2'. now right.
Qed.

Lemma find_exact_first r key val :
  match find_exact r key val with Some q => first_of r (eq (key, val)) q | None => forall x, In x r -> (key, val) <> snd (text x) end.
Proof.
  induction r as [|[e q] r IH]; cbn [find_exact]; [contradiction|]. destruct (str_eqb_spec (kv_key e) key) as [Ek|Ek]; cbn [andb].
  1: destruct (str_eqb_spec (kv_val e) val) as [Ev|Ev].
  - exists [], e, r. subst. repeat split; contradiction.
  - destruct (find_exact r key val) as [q'|].
    + destruct IH as (a & e' & b & -> & H1 & H2). exists ((e, q) :: a), e', b. split; [reflexivity|]. split; [exact H1|]. intros x [<-|Hx]; [cbn; congruence|now apply H2].
    + intros x [<-|Hx]; [cbn; congruence|now apply IH].
  - destruct (find_exact r key val) as [q'|].
    + destruct IH as (a & e' & b & -> & H1 & H2). exists ((e, q) :: a), e', b. split; [reflexivity|]. split; [exact H1|]. intros x [<-|Hx]; [cbn; congruence|now apply H2].
    + intros x [<-|Hx]; [cbn; congruence|now apply IH].
Qed.

(** One table. *)
Definition found (r : list entry) (key val : str) (ke ve : option Z) : Prop :=
  match ve with Some q => first_of r (eq (key, val)) q | None => forall x, In x r -> (key, val) <> snd (text x) end /\
  match ke with Some q => ve = None -> first_of r (fun p => fst p = key) q | None => forall x, In x r -> fst (snd (text x)) <> key end.

Lemma find_loop_found r key val : found r key val (fst (find_loop r key val)) (snd (find_loop r key val)).
Proof.
  induction r as [|[e q] r IH]; cbn [find_loop]; [split; intros x []|]. destruct (str_eqb_spec (kv_key e) key) as [Ek|Ek].
  - destruct (str_eqb_spec (kv_val e) val) as [Ev|Ev].
    + cbn [fst snd]. split; [exists [], e, r; subst; repeat split; contradiction|discriminate].
    + pose proof (find_exact_first r key val) as F. destruct (find_exact r key val) as [q'|]; cbn [fst snd].
      * split; [|discriminate]. destruct F as (a & e' & b & -> & H1 & H2). exists ((e, q) :: a), e', b. split; [reflexivity|]. split; [exact H1|]. intros x [<-|Hx]; [cbn; congruence|now apply H2].
      * split; [intros x [<-|Hx]; [cbn; congruence|now apply F]|]. intros _. exists [], e, r. split; [reflexivity|]. split; [exact Ek|contradiction].
  - destruct (find_loop r key val) as [ke ve]. cbn [fst snd] in *. destruct IH as [H1 H2]. split.
    + destruct ve as [v|].
      * destruct H1 as (a & e' & b & -> & H3 & H4). exists ((e, q) :: a), e', b. split; [reflexivity|]. split; [exact H3|]. intros x [<-|Hx]; [cbn; congruence|now apply H4].
      * intros x [<-|Hx]; [cbn; congruence|now apply H1].
    + destruct ke as [v|].
      * intros E. destruct (H2 E) as (a & e' & b & -> & H3 & H4). exists ((e, q) :: a), e', b. split; [reflexivity|]. split; [exact H3|]. intros x [<-|Hx]; [cbn; congruence|now apply H4].
      * intros x [<-|Hx]; [cbn; congruence|now apply H2].
Qed.

Lemma first_of_app_l a b P i : first_of a P i -> first_of (a ++ b) P i.
Proof. intros (x & e & y & -> & H1 & H2). exists x, e, (y ++ b). rewrite <- app_assoc. repeat split; assumption. Qed.
Lemma first_of_app_r a b P i : (forall x, In x a -> ~ P (snd (text x))) -> first_of b P i -> first_of (a ++ b) P i.
Proof.
  intros H (x & e & y & -> & H1 & H2). exists (a ++ x), e, y. rewrite <- app_assoc. split; [reflexivity|]. split; [exact H1|].
  intros z Hz. apply in_app_or in Hz as [Hz|Hz]; auto.
Qed.

Lemma find_idx_found c s key val : cfg_ok c -> sinv c s ->
  found (table s) key val (fst (find_entry_idx s key val)) (snd (find_entry_idx s key val)).
Proof.
  intros Hc Hs. unfold find_entry_idx, find_entries, table. pose proof (find_loop_found (rev (l_ring (s_lru s))) key val) as F1.
  pose proof (find_loop_found (rev (l_ring (s_static s))) key val) as F2.
  assert (Z0 : forall q P, first_of (rev (l_ring (s_lru s))) P q -> q <> 0).
  { intros q P (a & e & b & E & _). assert (Hin : In (e, q) (l_ring (s_lru s))) by (apply in_rev; rewrite E; apply in_elt). apply In_nth_error in Hin as (j & Hj).
    pose proof Hs as [_ S2 _ _ _]. assert (HO : 0 <= 65 < c_max_index c) by (destruct Hc; lia). pose proof (linv_range _ _ HO _ _ _ S2 Hj) as Hr. cbn [snd] in Hr. lia. }
  destruct (find_loop (rev (l_ring (s_lru s))) key val) as [ke ve]. destruct (find_loop (rev (l_ring (s_static s))) key val) as [ke2 ve2]. cbn [fst snd] in *.
  destruct F1 as [A1 B1]. destruct F2 as [A2 B2]. destruct ve as [v|]; cbn [fst snd].
  { split; [now apply first_of_app_l|]. destruct ke as [q|]; [discriminate|]. exfalso. destruct A1 as (a & e & b & E & H1 & _). apply (B1 (e, v)); [rewrite E; apply in_elt|]. cbn [text fst snd]. congruence. }
  destruct ke as [q|].
  - specialize (B1 eq_refl). pose proof (Z0 q _ B1) as N0. destruct (Z.eqb_spec q 0) as [C|_]; [contradiction|]. cbn [negb fst snd]. split; [|intros _; now apply first_of_app_l].
    destruct ve2 as [v|]; [now apply first_of_app_r|]. intros x Hx. apply in_app_or in Hx as [Hx|Hx]; auto.
  - cbn [fst snd]. split.
    + destruct ve2 as [v|]; [now apply first_of_app_r|]. intros x Hx. apply in_app_or in Hx as [Hx|Hx]; auto.
    + destruct ke2 as [q|]; [intros E; apply first_of_app_r; [exact B1|now apply B2]|]. intros x Hx. apply in_app_or in Hx as [Hx|Hx]; auto.
Qed.

(** ** The fold of make_op *)

Section Fold.
Context (c : cfg) (s : storage).
Let fe p := find_entry_idx s (fst p) (snd p).
Lemma fold_in L : let m := fold_left (make_op c s) L (mk_m [] [] [] [] []) in
  (forall i, In i (m_st m) <-> c_only_e c = false /\ exists p, In p L /\ snd (fe p) = Some i) /\
  (forall i, In i (m_et m) <-> c_only_e c = true /\ exists p, In p L /\ snd (fe p) = Some i) /\
  (forall i v, In (i, v) (m_sclone m) <-> exists n, In (n, v) L /\ snd (fe (n, v)) = None /\ fst (fe (n, v)) = Some i /\ n <> lit ":path") /\
  (forall i v, In (i, v) (m_eclone m) <-> exists n, In (n, v) L /\ snd (fe (n, v)) = None /\ fst (fe (n, v)) = Some i /\ n = lit ":path") /\
  (forall n v, In (n, v) (m_skvsto m) <-> In (n, v) L /\ fe (n, v) = (None, None)).
Proof.
  induction L as [|p L IH] using rev_ind; cbv zeta in *.
  { cbn [fold_left m_st m_et m_sclone m_eclone m_skvsto]. repeat split; try contradiction; intros H; firstorder. }
  rewrite fold_left_app. cbn [fold_left]. set (m := fold_left (make_op c s) L _) in *. clearbody m. destruct IH as (I1 & I2 & I3 & I4 & I5).
  destruct p as [key val]. unfold make_op.
  assert (Ef : fe (key, val) = find_entry_idx s key val) by reflexivity. destruct (find_entry_idx s key val) as [ke ve].
  assert (EL : forall q, In q (L ++ [(key, val)]) <-> In q L \/ q = (key, val)) by (intros q; rewrite in_app_iff; cbn [In]; intuition).
  set (path := lit ":path") in *. clearbody path.
  assert (Old1 : ve = None -> forall i, (exists p, In p (L ++ [(key, val)]) /\ snd (fe p) = Some i) <-> (exists p, In p L /\ snd (fe p) = Some i)).
  { intros -> i. split; intros (q & Hq & E); exists q; rewrite ?EL in *; [|auto]. destruct Hq as [Hq| ->]; [auto|]. rewrite Ef in E. discriminate E. }
  assert (New1 : forall v0, ve = Some v0 -> forall i, (exists p, In p (L ++ [(key, val)]) /\ snd (fe p) = Some i) <-> (exists p, In p L /\ snd (fe p) = Some i) \/ i = v0).
  { intros v0 -> i. split.
    - intros (q & Hq & E). apply EL in Hq as [Hq| ->]; [left; eauto|right]. rewrite Ef in E. cbn [snd] in E. congruence.
    - intros [(q & Hq & E)| ->]; [exists q; rewrite EL; auto|]. exists (key, val). rewrite EL, Ef. auto. }
  assert (Old2 : forall (Q : str -> Prop) i v, (ve <> None \/ ke = None \/ ~ Q key) ->
     ((exists n, In (n, v) (L ++ [(key, val)]) /\ snd (fe (n, v)) = None /\ fst (fe (n, v)) = Some i /\ Q n) <-> (exists n, In (n, v) L /\ snd (fe (n, v)) = None /\ fst (fe (n, v)) = Some i /\ Q n))).
  { intros Q i v H. split; intros (n & Hn & E1 & E2 & E3); exists n; rewrite ?EL in *; [|auto]. destruct Hn as [Hn|Hn]; [auto|]. exfalso.
    assert (n = key) by congruence. assert (v = val) by congruence. subst n v. rewrite Ef in E1, E2. cbn [fst snd] in E1, E2. subst ve ke. destruct H as [H|[H|H]]; [now apply H|discriminate H|now apply H]. }
  assert (New2 : forall (Q : str -> Prop) k0 i v, ve = None -> ke = Some k0 -> Q key ->
     ((exists n, In (n, v) (L ++ [(key, val)]) /\ snd (fe (n, v)) = None /\ fst (fe (n, v)) = Some i /\ Q n) <->
      (exists n, In (n, v) L /\ snd (fe (n, v)) = None /\ fst (fe (n, v)) = Some i /\ Q n) \/ (i, v) = (k0, val))).
  { intros Q k0 i v -> -> HQ. split.
    - intros (n & Hn & E1 & E2 & E3). apply EL in Hn as [Hn|Hn]; [left; eauto|right]. assert (n = key) by congruence. assert (v = val) by congruence. subst n v.
      rewrite Ef in E2. cbn [fst] in E2. congruence.
    - intros [(n & Hn & E)|E]; [exists n; rewrite EL; auto|]. assert (i = k0) by congruence. assert (v = val) by congruence. subst. exists key. rewrite EL, Ef. auto. }
  assert (Old3 : ve <> None \/ ke <> None -> forall n v, (In (n, v) (L ++ [(key, val)]) /\ fe (n, v) = (None, None)) <-> (In (n, v) L /\ fe (n, v) = (None, None))).
  { intros H n v. rewrite EL. split; [|tauto]. intros [[A|A] B]; [auto|]. exfalso. assert (n = key) by congruence. assert (v = val) by congruence. subst n v. rewrite Ef in B.
    assert (ke = None) by congruence. assert (ve = None) by congruence. subst. destruct H as [H|H]; now apply H. }
  assert (SN : forall {A} (x y : A) l, In x (l ++ [y]) <-> In x l \/ x = y) by (intros A x y l; rewrite in_app_iff; cbn [In]; intuition).
  destruct ve as [v0|].
  - assert (V : Some v0 <> (@None Z)) by discriminate.
    assert (B : (if c_only_e c then mk_m (m_st m) (m_et m ++ [v0]) (m_sclone m) (m_eclone m) (m_skvsto m) else mk_m (zadd v0 (m_st m)) (m_et m) (m_sclone m) (m_eclone m) (m_skvsto m)) =
        (mk_m (if c_only_e c then m_st m else zadd v0 (m_st m)) (if c_only_e c then m_et m ++ [v0] else m_et m) (m_sclone m) (m_eclone m) (m_skvsto m))) by (destruct (c_only_e c); reflexivity).
    assert (C : match ke with Some _ | _ => mk_m (if c_only_e c then m_st m else zadd v0 (m_st m)) (if c_only_e c then m_et m ++ [v0] else m_et m) (m_sclone m) (m_eclone m) (m_skvsto m) end = mk_m (if c_only_e c then m_st m else zadd v0 (m_st m)) (if c_only_e c then m_et m ++ [v0] else m_et m) (m_sclone m) (m_eclone m) (m_skvsto m)) by (destruct ke; reflexivity).
    rewrite B. rewrite ?C. clear B C.
    destruct ke as [kk|]; (cbn [m_st m_et m_sclone m_eclone m_skvsto]; split; [|split; [|split; [|split]]]).
    1,6: intros i; rewrite (New1 v0 eq_refl); destruct (c_only_e c); [rewrite I1; split; intros [X _]; discriminate X|rewrite zadd_In, I1; intuition].
    1,5: intros i; rewrite (New1 v0 eq_refl); destruct (c_only_e c); [rewrite SN, I2; intuition|rewrite I2; split; intros [X _]; discriminate X].
    1,4: intros i v; rewrite Old2 by auto; apply I3.
    1,3: intros i v; rewrite Old2 by auto; apply I4.
    1,2: intros n v; rewrite Old3 by auto; apply I5.
  - destruct ke as [k0|].
    + destruct (str_eqb_spec key path) as [Ep|Ep]; (cbn [m_st m_et m_sclone m_eclone m_skvsto]; split; [|split; [|split; [|split]]]).
      1,6: intros i; rewrite (Old1 eq_refl); apply I1.
      1,5: intros i; rewrite (Old1 eq_refl); apply I2.
      1: intros i v; rewrite Old2 by tauto; apply I3.
      1: intros i v; rewrite (New2 (fun n => n = path) k0 i v eq_refl eq_refl Ep), SN, I4; tauto.
      2: intros i v; rewrite (New2 (fun n => n <> path) k0 i v eq_refl eq_refl Ep), SN, I3; tauto.
      2: intros i v; rewrite Old2 by tauto; apply I4.
      1,2: intros n v; rewrite Old3 by (right; discriminate); apply I5.
    + cbn [m_st m_et m_sclone m_eclone m_skvsto]; split; [|split; [|split; [|split]]].
      * intros i; rewrite (Old1 eq_refl); apply I1.
      * intros i; rewrite (Old1 eq_refl); apply I2.
      * intros i v; rewrite Old2 by tauto; apply I3.
      * intros i v; rewrite Old2 by tauto; apply I4.
      * intros n v. rewrite SN, I5, EL. split; [intros [X|X]; [tauto|]|tauto]. assert (n = key) by congruence. assert (v = val) by congruence. subst. rewrite Ef. auto.
Qed.
End Fold.

(** ** Reading entries *)

Lemma in_table_reads k i p : reads k i p <-> exists e, In (e, i) (table (k_store k)) /\ p = (kv_key e, kv_val e).
Proof.
  unfold reads, entries. fold (table (k_store k)). rewrite in_map_iff. split.
  - intros ([e q] & E & H). unfold text in E. cbn [fst snd] in E. assert (q = i) by congruence. subst q. exists e. split; [exact H|congruence].
  - intros (e & H & ->). exists (e, i). auto.
Qed.
Lemma table_in_table s e i : In (e, i) (table s) <-> in_table s e i.
Proof. unfold table, in_table. rewrite in_app_iff, <- !in_rev. tauto. Qed.

Lemma reads_kvof k i p : kinv k -> live (k_store k) i -> (reads k i p <-> kvof (k_store k) i = p).
Proof.
  intros [Hc Hs _] L. rewrite in_table_reads. split.
  - intros (e & H & ->). apply table_in_table in H. now apply (in_table_kvof (k_cfg k) (k_store k) Hc Hs).
  - intros <-. destruct (lookup_live _ _ i Hc Hs L) as (e & E & T). exists e. split; [now apply table_in_table|]. unfold kvof. now rewrite E.
Qed.
Lemma reads_live k i p : kinv k -> reads k i p -> live (k_store k) i.
Proof. intros [Hc Hs _] H. apply in_table_reads in H as (e & H & _). apply table_in_table in H. now apply (in_table_kvof (k_cfg k) (k_store k) Hc Hs) in H. Qed.

Lemma in_group_cur k gid i : in_group k gid i <-> In i (cur_of k gid).
Proof.
  unfold in_group, cur_of, find_or_make. destruct (gget (k_groups k) gid) as [z|] eqn:E.
  - rewrite E. split; [intros (z' & E' & H); congruence|intros H; eauto].
  - split; [intros (z' & E' & _); discriminate|]. assert (G : forall g, gget g gid = None -> gget (gset g gid []) gid = Some []).
    { induction g as [|[j z] g IH]; cbn [gget gset]; [now rewrite N.eqb_refl|]. destruct (N.eqb_spec j gid) as [Ej|Ej]; [discriminate|]. cbn [gget]. destruct (N.eqb_spec j gid); [contradiction|exact IH]. }
    rewrite (G _ E). contradiction.
Qed.

(** ** Indices *)

Lemma means_ok o k w i : kinv k -> k_cfg k = config o -> live (k_store k) i -> 0 <= w ->
  (o_idx_from_end o = true -> lru_to_hg (k_store k) w = Ok i) -> (o_idx_from_end o = false -> w = i) -> means o k w i.
Proof.
  intros K Ec L Hw H1 H2. unfold means. destruct (o_idx_from_end o); [|now apply H2]. specialize (H1 eq_refl). split; [exact Hw|]. clear H2.
  pose proof K as [Hc Hs _]. pose proof Hs as [(S1 & S2 & S3) S4 _ _ _]. unfold lru_to_hg in H1. unfold ring_len in *.
  set (R := l_ring (s_lru (k_store k))) in *. set (S := l_ring (s_static (k_store k))) in *.
  assert (N : exists e, nth_error (rev R ++ rev S) (Z.to_nat w) = Some (e, i)).
  { assert (RN : forall (l : list entry) n x, (n < length l)%nat -> nth_error l (length l - 1 - n) = Some x -> nth_error (rev l) n = Some x).
    { intros l n x Hn Hx. rewrite (nth_error_nth' (rev l) x) by (rewrite rev_length; exact Hn). f_equal. rewrite rev_nth by exact Hn.
      replace (length l - Datatypes.S n)%nat with (length l - 1 - n)%nat by lia. now apply nth_error_nth. }
    destruct (Z.ltb_spec w (Z.of_nat (length R))) as [Hl|Hl].
    - unfold dq_get in H1. destruct (Z.ltb_spec (- (w + 1)) 0); [|lia]. destruct ((0 <=? - (w + 1) + Z.of_nat (length R)) && (- (w + 1) + Z.of_nat (length R) <? Z.of_nat (length R)))%bool; [|discriminate].
      destruct (nth_error R (Z.to_nat (- (w + 1) + Z.of_nat (length R)))) as [[e q]|] eqn:En; [|discriminate]. cbn [bind snd] in H1. assert (q = i) by congruence. subst q. exists e.
      rewrite nth_error_app1 by (rewrite rev_length; lia). apply RN; [lia|]. replace (length R - 1 - Z.to_nat w)%nat with (Z.to_nat (- (w + 1) + Z.of_nat (length R))) by lia. exact En.
    - assert (Ei : i = (Z.of_nat (length S) - 1) - (w - Z.of_nat (length R))) by congruence.
      assert (0 <= i). { destruct L as [L|L]; [exact (proj1 L)|]. apply in_map_iff in L as (x & <- & Hin). apply In_nth_error in Hin as (n & Hj).
        assert (HO : 0 <= 65 < c_max_index (k_cfg k)) by (destruct Hc; lia). pose proof (linv_range _ _ HO _ _ _ S4 Hj). lia. }
      destruct (nth_error S (Z.to_nat i)) as [[e q]|] eqn:En; [|apply nth_error_None in En; lia].
      pose proof (S3 _ _ En) as Eq. cbn [snd] in Eq. exists e. rewrite nth_error_app2 by (rewrite rev_length; lia). rewrite rev_length.
      apply RN; [lia|]. replace (length S - 1 - (Z.to_nat w - length R))%nat with (Z.to_nat i) by lia. rewrite En. f_equal. f_equal. lia. }
  destruct N as (e & N). exists (kv_key e, kv_val e). unfold entries. fold R S. rewrite (map_nth_error text _ _ N). reflexivity.
Qed.

Lemma config_from_end o : c_from_end (config o) = o_idx_from_end o.
Proof. unfold config. destruct (o_small_index o); reflexivity. Qed.
Lemma config_only_e o : c_only_e (config o) = o_only_etoggles o.
Proof. unfold config. destruct (o_small_index o); reflexivity. Qed.

(** What is on the wire has numbers that are not negative. *)
Definition nonneg_op (x : op) : Prop :=
  match x with OToggl _ i => 0 <= i | OTrang _ i st => 0 <= i /\ 0 <= st | OClone _ i _ => 0 <= i | OKvsto _ _ _ => True end.

Lemma means_ops o k ws ops : kinv k -> k_cfg k = config o -> Forall nonneg_op ws -> Forall (op_live (k_store k)) ops ->
  lru_to_hg_ops (k_cfg k) (k_store k) ws = Ok ops -> Forall2 (means_op o k) ws ops.
Proof.
  intros K Ec. unfold lru_to_hg_ops. rewrite Ec, config_from_end. destruct (o_idx_from_end o) eqn:Eo.
  - revert ops. induction ws as [|w ws IH]; intros ops Fw Fo E; cbn [mapm] in E; [injection E as <-; constructor|].
    inversion Fw as [|? ? W1 W2]; subst. destruct (map_index (lru_to_hg (k_store k)) w) as [x|] eqn:Ex; [|discriminate]. cbn [bind] in E.
    destruct (mapm (map_index (lru_to_hg (k_store k))) ws) as [r|]; [|discriminate]. cbn [bind] in E. assert (ops = x :: r) by congruence. subst ops. inversion Fo as [|? ? L1 L2]; subst.
    constructor; [|now apply IH]. clear IH W2 L2 E. destruct w as [e j|e j st|e j v|e n v]; cbn [map_index nonneg_op] in *.
    + destruct (lru_to_hg (k_store k) j) as [i|] eqn:E1; [|discriminate]. cbn [bind] in Ex. assert (x = OToggl e i) by congruence. subst x. cbn [op_live] in L1.
      constructor. apply means_ok; auto. congruence.
    + destruct (lru_to_hg (k_store k) j) as [i|] eqn:E1; [|discriminate]. cbn [bind] in Ex. destruct (lru_to_hg (k_store k) st) as [i'|] eqn:E2; [|discriminate]. cbn [bind] in Ex.
      assert (x = OTrang e i i') by congruence. subst x. cbn [op_live] in L1. destruct L1, W1. constructor; apply means_ok; auto; congruence.
    + destruct (lru_to_hg (k_store k) j) as [i|] eqn:E1; [|discriminate]. cbn [bind] in Ex. assert (x = OClone e i v) by congruence. subst x. cbn [op_live] in L1.
      constructor. apply means_ok; auto. congruence.
    + assert (x = OKvsto e n v) by congruence. subst x. constructor.
  - intros Fw Fo E. assert (ws = ops) by congruence. subst ws. clear E Fw Fo. induction ops as [|x ops IH]; constructor; auto.
    destruct x; constructor; unfold means; rewrite Eo; reflexivity.
Qed.

Lemma valid_nonneg w is : valid w is -> Forall nonneg_op (flat_map snd is).
Proof.
  intros V. apply Forall_forall. intros x Hx. apply in_flat_map in Hx as ([oc ops] & H1 & H2). cbn [snd] in H2. specialize (V oc ops H1).
  assert (X : valid_instr w oc x) by (now apply V). destruct x; cbn in X |- *; unfold index_fits in X; intuition.
Qed.

(** ** The instructions *)

Lemma written_ok e T l ops : NoDup T -> Permutation l T ->
  (forall i, In (OToggl e i) ops <-> In i (fst (figure_out_ranges l))) ->
  (forall i st, In (OTrang e i st) ops <-> In (i, st) (snd (figure_out_ranges l))) -> written e T ops.
Proof.
  intros Hn P H1 H2. assert (Hl : NoDup l) by (eapply Permutation_NoDup; [symmetry; exact P|exact Hn]). destruct (C26_runs l Hl) as [R1 R2]. rewrite (joins_perm _ _ P) in R1, R2.
  assert (HI : forall z, In z l <-> In z T) by (intros z; split; apply Permutation_in; [exact P|now symmetry]).
  split; intros J.
  - specialize (R1 J). split.
    + intros i. rewrite H1, <- HI. destruct (figure_out_ok l) as [Q _]. split; intros H.
      * eapply Permutation_in; [exact Q|]. unfold expand. apply in_or_app. now left.
      * eapply Permutation_in in H; [|symmetry; exact Q]. unfold expand in H. rewrite R1 in H. cbn [flat_map] in H. now rewrite app_nil_r in H.
    + intros la st. rewrite H2, R1. auto.
  - destruct (R2 J) as [R3 R4]. split.
    + intros i. rewrite H1, R3. unfold alone. now rewrite !HI.
    + intros la st. rewrite H2, R4. unfold run_of. rewrite !HI. split; intros (A & B & C); (split; [exact A|]; split; [|exact C]); intros i Hi; apply HI; now apply B.
Qed.

Lemma NoDup_ops m done : NoDup (zunion (m_st m) done) -> NoDup (m_et m) -> NoDup (m_sclone m) -> NoDup (m_eclone m) -> NoDup (m_skvsto m) ->
  forall ocs, NoDup ocs -> NoDup (flat_map (ops_of m done) ocs).
Proof.
  intros N1 N2 N3 N4 N5. assert (NR : forall l, NoDup l -> NoDup (fst (figure_out_ranges l)) /\ NoDup (snd (figure_out_ranges l))).
  { intros l Hl. destruct (figure_out_ok l) as [P F]. assert (Ne : NoDup (expand (figure_out_ranges l))) by (eapply Permutation_NoDup; [symmetry; exact P|exact Hl]).
    unfold expand in Ne. split; [eapply NoDup_app_l; exact Ne|]. apply NoDup_app_r in Ne. revert F Ne. induction (snd (figure_out_ranges l)) as [|[i st] r IH]; intros F Ne; [constructor|].
    inversion F as [|? ? F1 F2]; subst. cbn [flat_map fst snd] in Ne, F1. constructor; [|apply IH; [exact F2|now apply NoDup_app_r in Ne]].
    intros C. assert (Hx : In st (xrange st (i + 1))) by (apply xrange_In; lia).
    assert (Hy : In st (flat_map (fun p => xrange (snd p) (fst p + 1)) r)) by (apply in_flat_map; exists (i, st); split; [exact C|exact Hx]).
    clear - Hx Hy Ne. induction (xrange st (i + 1)) as [|z l IH]; [contradiction|]. cbn [app] in Ne. inversion Ne as [|? ? M1 M2]; subst. destruct Hx as [->|Hx]; [apply M1, in_or_app; now right|auto]. }
  assert (Each : forall oc, NoDup (ops_of m done oc)).
  { assert (NM : forall {A} (f : A -> op) l, (forall x y, f x = f y -> x = y) -> NoDup l -> NoDup (map f l)).
    { intros A f l Hf Hl. induction Hl as [|x l H1 H2 IH]; cbn [map]; constructor; auto. intros C. apply in_map_iff in C as (y & E & Hy). apply Hf in E. now subst. }
    intros [[] e]; cbn [ops_of]; [| | |destruct e; [constructor|]]; apply NM.
    all: try (intros x y E; congruence).
    all: try (intros [x1 x2] [y1 y2] E; cbn [fst snd] in E; congruence).
    - destruct e; now apply NR.
    - destruct e; now apply NR.
    - destruct e; assumption.
    - assumption. }
  induction ocs as [|oc ocs IH]; intros Hn; cbn [flat_map]; [constructor|]. inversion Hn as [|? ? H1 H2]; subst. specialize (IH H2).
  assert (D : forall x, In x (ops_of m done oc) -> ~ In x (flat_map (ops_of m done) ocs)).
  { intros x Hx C. apply in_flat_map in C as (oc' & Ho & Hx'). apply ops_of_code in Hx. apply ops_of_code in Hx'. congruence. }
  specialize (Each oc). induction Each as [|x l A B IH2]; [exact IH|]. cbn [app]. constructor.
  - intros C. apply in_app_or in C as [C|C]; [contradiction|]. apply (D x); [now left|exact C].
  - apply IH2. intros y Hy. apply D. now right.
Qed.

Lemma in_all_ops m done ocs x : Permutation ocs all_opcodes -> (In x (flat_map (ops_of m done) ocs) <-> In x (ops_of m done (opcode_of x))).
Proof.
  intros P. rewrite in_flat_map. split.
  - intros (oc & _ & Hx). now rewrite (ops_of_code _ _ _ _ Hx).
  - intros Hx. exists (opcode_of x). split; [|exact Hx]. eapply Permutation_in; [symmetry; exact P|]. unfold all_opcodes. destruct x as [[]|[]|[]|[]]; cbn; tauto.
Qed.

Lemma make_chosen o r k d gid k' is : kinv k -> k_cfg k = config o -> order_ok r -> headers_bytes d ->
  make_operations r k d gid = Ok (k', is) -> exists ops, Forall2 (means_op o k) (flat_map snd is) ops /\ chosen o k gid d ops.
Proof.
  intros K Ec Ho Hb Em. destruct (make_ok r k d gid K Ho Hb) as (k2 & is2 & Em2 & _ & _ & V & _ & (ops0 & T0 & L0) & _).
  assert (is2 = is) by congruence. subst is2. clear Em2 k2. pose proof (means_ops o k _ ops0 K Ec (valid_nonneg _ _ V) L0 T0) as MO. exists ops0. split; [exact MO|].
  pose proof K as [Hc Hs Hg]. set (c := k_cfg k) in *. set (s := k_store k) in *. pose proof Ho as [O1 O2 O3 O4].
  unfold make_operations in Em. cbv zeta in Em. fold c in Em. fold s in Em. fold (cur_of k gid) in Em. destruct (cur_of_ok k gid K) as [Cs Cl]. fold s in Cl.
  assert (G : forall i, in_group k gid i <-> In i (cur_of k gid)) by (intros i; apply in_group_cur). set (cur := cur_of k gid) in *. clearbody cur.
  destruct (headers_set_ok d) as [Hn Hin]. pose proof (zsorted_NoDup _ Cs) as Cn.
  destruct (keep_loop_ok c s Hc Hs (r_group r cur) (headers_set d) []) as (hs & done & kept & E & Z1 & Z2 & Z3 & Z4 & Z5).
  { eapply Permutation_NoDup; [symmetry; apply O2|exact Cn]. }
  { eapply Permutation_Forall; [symmetry; apply O2|exact Cl]. }
  { exact Hn. }
  { constructor. }
  rewrite E in Em. cbn [bind] in Em.
  assert (Nall : NoDup (map (kvof s) kept ++ hs)) by (eapply Permutation_NoDup; [exact Z4|exact Hn]).
  assert (Nhs : NoDup (r_headers r hs)).
  { eapply Permutation_NoDup; [symmetry; apply O1|]. apply NoDup_app_r in Nall. exact Nall. }
  pose proof (make_fold_ok c s Hc Hs (r_headers r hs) Nhs) as M. pose proof (fold_in c s (r_headers r hs)) as F. cbv zeta in F. set (m := fold_left _ _ _) in *. clearbody m.
  pose proof M as [M1 M2 M3 M4].
  destruct (mapm (fun oc => let* ops := hg_to_lru_ops c s (ops_of m done oc) in Ok (oc, ops)) (r_instr r)) as [is2|] eqn:Eis; [|discriminate]. cbn [bind] in Em.
  assert (is2 = is). { destruct (execute_ops _ _ _ _) as [[k2 hd]|]; [|discriminate]. cbn [bind] in Em. congruence. } subst is2. clear Em.
  assert (HL : forall x, In x (m_st m ++ m_et m) -> live s x) by (rewrite Forall_forall in M3; exact M3).
  assert (Hdone : forall i, In i done <-> In i cur /\ ~ In i kept).
  { intros i. rewrite Z3. cbn. split; [intros [[]|[A B]]|intros [A B]; right]; (split; [|exact B]); [eapply Permutation_in; [apply O2|exact A]|eapply Permutation_in; [symmetry; apply O2|exact A]]. }
  assert (Hkept : forall i, In i kept -> In i cur) by (intros i Hi; eapply Permutation_in; [apply O2|]; now apply Z2).
  assert (Hcur : forall i, In i cur -> ~ In (kvof s i) hs) by (intros i Hi; apply Z5; eapply Permutation_in; [symmetry; apply O2|exact Hi]).
  assert (Lcur : forall i, In i cur -> live s i) by (rewrite Forall_forall in Cl; exact Cl).
  assert (P' : Permutation hs (map (kvof s) (m_st m ++ m_et m) ++ map (ck s) (m_sclone m ++ m_eclone m) ++ m_skvsto m)) by (rewrite <- M1; symmetry; apply O1).
  assert (Hbytes : forall kk p, In (kk, p) (headers_set d) -> is_bytes kk /\ is_bytes p).
  { intros kk p H. apply Hin, all_pairs_in in H as (v & Hv & Hp). destruct (Hb kk v Hv) as [B1 B2]. split; [exact B1|]. now apply (pieces_in kk v p Hp). }
  assert (Hsub : forall p, In p (map (ck s) (m_sclone m ++ m_eclone m) ++ m_skvsto m) -> is_bytes (fst p) /\ is_bytes (snd p)).
  { intros [a b] Hp. apply Hbytes. eapply Permutation_in; [symmetry; exact Z4|]. apply in_or_app. right. eapply Permutation_in; [symmetry; exact P'|]. apply in_or_app. now right. }
  assert (Hu : forall (e : bool) i, In i (if e then m_et m else zunion (m_st m) done) -> live s i).
  { intros [] i Hi; [apply HL, in_or_app; now right|]. apply zunion_In in Hi as [Hi|Hi]; [apply HL, in_or_app; now left|]. apply Hdone in Hi as [Hi _]. now apply Lcur. }
  rewrite Forall_forall in M4.
  assert (Hlive : forall oc x, In x (ops_of m done oc) -> op_live s x /\ op_bytes x /\ opcode_of x = oc).
  { intros oc x Hx. split; [|split; [|now apply ops_of_code in Hx]].
    - destruct oc as [[] e]; cbn [ops_of] in Hx; [| | |destruct e; [contradiction|]]; apply in_map_iff in Hx as (y & <- & Hy); cbn [op_live].
      + apply (Hu e). now apply single_in.
      + destruct y as [i st]. apply range_in in Hy as [A B]. cbn [fst snd]. split; now apply (Hu e).
      + apply (M4 y). apply in_or_app. destruct e; auto.
      + exact I.
    - destruct oc as [[] e]; cbn [ops_of] in Hx; [| | |destruct e; [contradiction|]]; apply in_map_iff in Hx as (y & <- & Hy); cbn [op_bytes]; auto.
      + apply (Hsub (ck s y)). apply in_or_app. left. apply in_map. apply in_or_app. destruct e; auto.
      + apply (Hsub y). apply in_or_app. now right. }
  destruct (trans_all c s Hc Hs (ops_of m done) (r_instr r) Hlive) as (is3 & E1 & _ & E3 & _). assert (is3 = is) by congruence. subst is3.
  assert (ops0 = flat_map (ops_of m done) (r_instr r)) by congruence. clear E1 E3 T0 Eis MO L0 Hlive. subst ops0.
  assert (OP : forall x, In x (flat_map (ops_of m done) (r_instr r)) <-> In x (ops_of m done (opcode_of x))) by (intros x; now apply in_all_ops).
  (* what is wanted *)
  assert (Rk : forall i p, live s i -> (reads k i p <-> kvof s i = p)) by (intros i p Hl; now apply (reads_kvof k i p K)).
  assert (W : forall n v, In (n, v) hs <-> wanted k gid d n v).
  { intros n v. unfold wanted. rewrite carries_pairs. split.
    - intros H. split; [eapply Permutation_in; [symmetry; exact Z4|]; apply in_or_app; now right|]. intros i Hi C. apply G in Hi. apply Rk in C; [|now apply Lcur]. apply (Hcur i Hi). congruence.
    - intros [H1 H2]. eapply Permutation_in in H1; [|exact Z4]. apply in_app_or in H1 as [H1|H1]; [|exact H1]. exfalso. apply in_map_iff in H1 as (i & Ei & Hi).
      apply (H2 i); [apply G; now apply Hkept|]. apply Rk; [apply Lcur; now apply Hkept|exact Ei]. }
  assert (W' : forall n v, In (n, v) (r_headers r hs) <-> wanted k gid d n v) by (intros n v; rewrite <- W; split; apply Permutation_in; [|symmetry]; apply O1).
  destruct F as (F1 & F2 & F3 & F4 & F5).
  assert (FE : forall p i, snd (find_entry_idx s (fst p) (snd p)) = Some i <-> first_entry k (eq p) i).
  { intros [n v] i. cbn [fst snd]. pose proof (find_idx_found c s n v Hc Hs) as [X _]. rewrite <- first_entry_of. fold s. split.
    - intros Q. now rewrite Q in X.
    - intros Q. destruct (snd (find_entry_idx s n v)) as [q|]; [f_equal; eapply first_of_unique; [exact X|exact Q]|].
      exfalso. destruct Q as (a & e & b & Et & Q1 & _). apply (X (e, i)); [rewrite Et; apply in_elt|exact Q1]. }
  assert (FN : forall n v, snd (find_entry_idx s n v) = None <-> forall j, ~ reads k j (n, v)).
  { intros n v. pose proof (find_idx_found c s n v Hc Hs) as [X _]. split.
    - intros Q j C. rewrite Q in X. apply in_table_reads in C as (e & C & Ee). apply (X (e, j)); [exact C|exact Ee].
    - intros Q. destruct (snd (find_entry_idx s n v)) as [q|] eqn:Eq; [|reflexivity]. exfalso. destruct X as (a & e & b & Et & Q1 & _). apply (Q q). apply in_table_reads. exists e.
      split; [fold s; rewrite Et; apply in_elt|exact Q1]. }
  assert (FK : forall n v i, snd (find_entry_idx s n v) = None -> (fst (find_entry_idx s n v) = Some i <-> first_entry k (fun p => fst p = n) i)).
  { intros n v i Q. pose proof (find_idx_found c s n v Hc Hs) as [_ X]. rewrite <- first_entry_of. fold s. split.
    - intros Q1. rewrite Q1 in X. now apply X.
    - intros Q1. destruct (fst (find_entry_idx s n v)) as [q|]; [f_equal; eapply first_of_unique; [now apply X|exact Q1]|].
      exfalso. destruct Q1 as (a & e & b & Et & Q1 & _). apply (X (e, i)); [rewrite Et; apply in_elt|exact Q1]. }
  assert (FKN : forall n v, find_entry_idx s n v = (None, None) <-> forall j w, ~ reads k j (n, w)).
  { intros n v. pose proof (find_idx_found c s n v Hc Hs) as [_ X]. split.
    - intros Q j w C. rewrite Q in X. cbn [fst] in X. apply in_table_reads in C as (e & C & Ee). apply (X (e, j)); [exact C|]. cbn [text fst snd]. congruence.
    - intros Q. assert (Q1 : snd (find_entry_idx s n v) = None) by (apply FN; intros j; apply Q). destruct (find_entry_idx s n v) as [ke ve] eqn:Ef. cbn [fst snd] in *. subst ve. f_equal.
      destruct ke as [q|]; [|reflexivity]. exfalso. destruct (X eq_refl) as (a & e & b & Et & Q1 & _). apply (Q q (kv_val e)). apply in_table_reads. exists e.
      split; [fold s; rewrite Et; apply in_elt|cbn [fst] in Q1; congruence]. }
  assert (TW : forall i, (exists p, In p (r_headers r hs) /\ snd (find_entry_idx s (fst p) (snd p)) = Some i) <-> exists n v, wanted k gid d n v /\ first_entry k (eq (n, v)) i).
  { intros i. split.
    - intros ([n v] & H1 & H2). exists n, v. split; [now apply W'|now apply FE].
    - intros (n & v & H1 & H2). exists (n, v). split; [now apply W'|now apply FE]. }
  assert (Npp : NoDup (map (kvof s) (m_st m ++ m_et m) ++ map (ck s) (m_sclone m ++ m_eclone m) ++ m_skvsto m)).
  { eapply Permutation_NoDup; [exact P'|]. now apply NoDup_app_r in Nall. }
  assert (N0 : NoDup (zunion (m_st m) done)) by (apply zsorted_NoDup, zunion_sorted, M2).
  assert (N1 : NoDup (m_et m)). { apply NoDup_app_l, NoDup_map_inv, NoDup_app_r in Npp. exact Npp. }
  assert (N2 : NoDup (m_sclone m ++ m_eclone m)). { apply NoDup_app_r, NoDup_app_l, NoDup_map_inv in Npp. exact Npp. }
  assert (N3 : NoDup (m_skvsto m)). { apply NoDup_app_r, NoDup_app_r in Npp. exact Npp. }
  assert (Nocs : NoDup (r_instr r)). { eapply Permutation_NoDup; [symmetry; exact O3|]. unfold all_opcodes. repeat constructor; cbn; intuition congruence. }
  split.
  - apply NoDup_ops; auto; [eapply NoDup_app_l; exact N2|eapply NoDup_app_r; exact N2].
  - exists kept, (zunion (m_st m) done). split; [|split; [exact N0|split]].
    + split; [|split].
      * intros i Hi. split; [apply G; now apply Hkept|]. destruct (kvof s i) as [n v] eqn:Ei. exists n, v. split; [apply Rk; [apply Lcur; now apply Hkept|exact Ei]|].
        apply carries_pairs. eapply Permutation_in; [symmetry; exact Z4|]. apply in_or_app. left. rewrite <- Ei. now apply in_map.
      * intros i j p Hi Hj Ri Rj. apply Rk in Ri; [|apply Lcur; now apply Hkept]. apply Rk in Rj; [|apply Lcur; now apply Hkept].
        apply NoDup_app_l in Nall. apply In_nth_error in Hi as (a & Ha). apply In_nth_error in Hj as (b & Hb').
        assert (a = b). { assert (La : (a < length (map (kvof s) kept))%nat) by (rewrite map_length; apply nth_error_Some; congruence).
          apply (proj1 (NoDup_nth_error _) Nall a b La). rewrite (map_nth_error (kvof s) _ _ Ha), (map_nth_error (kvof s) _ _ Hb'). congruence. }
        congruence.
      * intros i n v Hi Ri Ci. apply G in Hi. apply Rk in Ri; [|now apply Lcur]. apply carries_pairs in Ci. eapply Permutation_in in Ci; [|exact Z4].
        apply in_app_or in Ci as [Ci|Ci]; [|exfalso; apply (Hcur i Hi); now rewrite Ri]. apply in_map_iff in Ci as (j & Ej & Hj). exists j. split; [exact Hj|]. apply Rk; [apply Lcur; now apply Hkept|exact Ej].
    + apply (written_ok false _ (zunion (m_st m) done)); [exact N0|reflexivity| |].
      * intros i. rewrite OP. cbn [opcode_of ops_of]. rewrite in_map_iff. split; [intros (x & Ex & Hx); congruence|intros H; eauto].
      * intros i st. rewrite OP. cbn [opcode_of ops_of]. rewrite in_map_iff. split; [intros ([a b] & Ex & Hx); cbn [fst snd] in Ex; congruence|intros H; exists (i, st); auto].
    + intros i. rewrite zunion_In, F1, Hdone, G, TW. rewrite Ec, config_only_e. tauto.
  - exists (m_et m). split; [exact N1|]. split.
    + apply (written_ok true _ (m_et m)); [exact N1|reflexivity| |].
      * intros i. rewrite OP. cbn [opcode_of ops_of]. rewrite in_map_iff. split; [intros (x & Ex & Hx); congruence|intros H; eauto].
      * intros i st. rewrite OP. cbn [opcode_of ops_of]. rewrite in_map_iff. split; [intros ([a b] & Ex & Hx); cbn [fst snd] in Ex; congruence|intros H; exists (i, st); auto].
    + intros i. rewrite F2, TW. rewrite Ec, config_only_e. tauto.
  - intros e i v. rewrite OP. cbn [opcode_of ops_of].
    assert (X : In (OClone e i v) (map (fun r : Z * str => OClone e (fst r) (snd r)) (if e then m_eclone m else m_sclone m)) <-> In (i, v) (if e then m_eclone m else m_sclone m)).
    { rewrite in_map_iff. split; [intros ([a b] & Ex & Hx); cbn [fst snd] in Ex; congruence|intros H; exists (i, v); auto]. }
    rewrite X. clear X. destruct e; [rewrite F4|rewrite F3]; cbn [fst snd]; split; intros (n & H1 & H2 & H3 & H4); exists n.
    + split; [now apply W'|]. split; [now apply (FN n v)|]. split; [now apply (FK n v i H2)|tauto].
    + assert (Q : snd (find_entry_idx s n v) = None) by now apply FN. split; [now apply W'|]. split; [exact Q|]. split; [now apply FK|tauto].
    + split; [now apply W'|]. split; [now apply (FN n v)|]. split; [now apply (FK n v i H2)|]. split; [discriminate|contradiction].
    + assert (Q : snd (find_entry_idx s n v) = None) by now apply FN. split; [now apply W'|]. split; [exact Q|]. split; [now apply FK|]. intros Cn'. apply H4 in Cn'. discriminate Cn'.
  - intros e n v. rewrite OP. cbn [opcode_of]. destruct e; cbn [ops_of].
    + split; [contradiction|intros [X _]; discriminate X].
    + rewrite in_map_iff. split.
      * intros ([a b] & Ex & Hx). cbn [fst snd] in Ex. assert (a = n) by congruence. assert (b = v) by congruence. subst a b. apply F5 in Hx as [H1 H2]. split; [reflexivity|]. split; [now apply W'|now apply (FKN n v)].
      * intros (_ & H1 & H2). exists (n, v). split; [reflexivity|]. apply F5. split; [now apply W'|]. cbn [fst snd]. now apply FKN.
Qed.
