(** * delta2's reference counts and the octets its table counts. *)
From Coq Require Import String List NArith ZArith Bool Arith Lia.
From Verif Require Import PyBase PyStr Lib_Model D2Store_Model D2Store_Proofs D2Wire_Model D2Code_Model D2Code_Sets D2Code_Store D2Code_Exec.
Import ListNotations.
Open Scope Z_scope.
Open Scope py_scope.

Lemma upd_length {A} (f : A -> A) (l : list A) n : length (update_nth n f l) = length l.
Proof. revert n. induction l as [|x l IH]; intros [|n]; cbn [update_nth length]; auto. Qed.
Lemma upd_nth {A} (f : A -> A) d (l : list A) n m : nth m (update_nth n f l) d = if Nat.eqb m n && Nat.ltb m (length l) then f (nth m l d) else nth m l d.
Proof.
  revert n m. induction l as [|x l IH]; intros [|n] [|m]; cbn [update_nth nth length]; rewrite ?andb_false_r; try reflexivity.
  rewrite IH. reflexivity.
Qed.

Definition cells (rc : bool) (e : kv) : list nat := if rc then [kv_kc e; kv_vc e] else [kv_kc e].
(** How often entries refer to the cell [c] (to value cells only when values are counted). *)
Definition occ (rc : bool) (r : list kv) (c : nat) : Z := Z.of_nat (count_occ Nat.eq_dec (flat_map (cells rc) r) c).
Definition vlen (rc : bool) (e : kv) : Z := if rc then 0 else Z.of_nat (length (kv_val e)).
Definition vsum (rc : bool) (r : list kv) : Z := fold_right (fun e a => vlen rc e + a) 0 r.

(** [G] is a set of cells that something outside the ring refers to for ever. *)
Record hinv (rc : bool) (G : nat -> Prop) (h : heap) (r : list kv) : Prop := {
  hi_G : forall c, G c -> (c < length h)%nat /\ 1 + occ rc r c <= refcnt h c;
  hi_key : forall e, In e r -> G (kv_kc e);
  hi_val : forall e, In e r -> if rc then G (kv_vc e) else ~ G (kv_vc e) /\ (kv_vc e < length h)%nat /\ refcnt h (kv_vc e) = 1;
  hi_nodup : rc = false -> NoDup (map kv_vc r) }.

Lemma occ_nonneg rc r c : 0 <= occ rc r c.
Proof. unfold occ. lia. Qed.
Lemma occ_cons rc e r c : occ rc (e :: r) c = Z.of_nat (count_occ Nat.eq_dec (cells rc e) c) + occ rc r c.
Proof. unfold occ. cbn [flat_map]. rewrite count_occ_app. lia. Qed.
Lemma occ_app rc a b c : occ rc (a ++ b) c = occ rc a c + occ rc b c.
Proof. unfold occ. rewrite flat_map_app, count_occ_app. lia. Qed.
Lemma occ_in rc r e c : In e r -> In c (cells rc e) -> 1 <= occ rc r c.
Proof.
  intros He Hc. unfold occ. assert (H : In c (flat_map (cells rc) r)) by (apply in_flat_map; eauto). apply (count_occ_In Nat.eq_dec) in H. lia.
Qed.
Lemma vsum_app rc a b : vsum rc (a ++ b) = vsum rc a + vsum rc b.
Proof. unfold vsum. induction a as [|e a IH]; cbn [app fold_right]; [lia|]. rewrite IH. lia. Qed.

Lemma hinv_size rc G h r e : hinv rc G h r -> In e r -> kv_size h e = vlen rc e.
Proof.
  intros [H1 H2 H3 _] He. unfold kv_size, ref_len, vlen.
  assert (K : 1 <? refcnt h (kv_kc e) = true).
  { apply Z.ltb_lt. destruct (H1 _ (H2 e He)) as [_ H]. assert (1 <= occ rc r (kv_kc e)) by (eapply occ_in; eauto; destruct rc; now left). lia. }
  rewrite K. specialize (H3 e He). destruct rc.
  - assert (V : 1 <? refcnt h (kv_vc e) = true).
    { apply Z.ltb_lt. destruct (H1 _ H3) as [_ H]. assert (1 <= occ true r (kv_vc e)) by (eapply occ_in; eauto; right; now left). lia. }
    now rewrite V.
  - destruct H3 as (_ & _ & ->). cbn. lia.
Qed.

Lemma refcnt_done h c x : refcnt (ref_done h c) x = if Nat.eqb x c && Nat.ltb x (length h) then refcnt h x - 1 else refcnt h x.
Proof. unfold refcnt, ref_done. now rewrite upd_nth. Qed.
Lemma refcnt_incr h c x : refcnt (update_nth c (fun n => n + 1) h) x = if Nat.eqb x c && Nat.ltb x (length h) then refcnt h x + 1 else refcnt h x.
Proof. unfold refcnt. now rewrite upd_nth. Qed.
Lemma refcnt_new h x : refcnt (h ++ [1]) x = if Nat.eqb x (length h) then 1 else refcnt h x.
Proof.
  unfold refcnt. destruct (Nat.eqb_spec x (length h)) as [->|N]; [rewrite app_nth2, Nat.sub_diag by lia; reflexivity|].
  destruct (Nat.lt_ge_cases x (length h)); [now rewrite app_nth1|]. rewrite !nth_overflow; [reflexivity|lia|rewrite app_length; cbn; lia].
Qed.

(** Popping the oldest entry. *)
Lemma hinv_pop rc G h e r : hinv rc G h (e :: r) -> hinv rc G (kv_done h e) r.
Proof.
  intros [H1 H2 H3 H4]. unfold kv_done. pose proof (H2 e (or_introl eq_refl)) as Hk. pose proof (H3 e (or_introl eq_refl)) as Hv. destruct (H1 _ Hk) as [Lk _].
  split.
  - intros c Hc. destruct (H1 c Hc) as [L R]. unfold ref_done at 1 2. rewrite !upd_length. split; [exact L|]. rewrite !refcnt_done. unfold ref_done at 1. rewrite upd_length.
    rewrite occ_cons in R. assert (Lb : Nat.ltb c (length h) = true) by (now apply Nat.ltb_lt). rewrite Lb, !andb_true_r. unfold cells in R. destruct rc; cbn [count_occ] in R.
    + destruct (Nat.eq_dec (kv_kc e) c), (Nat.eq_dec (kv_vc e) c), (Nat.eqb_spec c (kv_vc e)), (Nat.eqb_spec c (kv_kc e)); try congruence; lia.
    + destruct (Nat.eqb_spec c (kv_vc e)) as [->|]; [tauto|]. destruct (Nat.eq_dec (kv_kc e) c), (Nat.eqb_spec c (kv_kc e)); try congruence; lia.
  - intros e' He. apply H2. now right.
  - intros e' He. specialize (H3 e' (or_intror He)). destruct rc; [exact H3|]. destruct H3 as (A & B & C). split; [exact A|].
    unfold ref_done at 1 2. rewrite !upd_length. split; [exact B|]. rewrite !refcnt_done.
    destruct (Nat.eqb_spec (kv_vc e') (kv_vc e)) as [E|_].
    + exfalso. specialize (H4 eq_refl). cbn in H4. inversion H4 as [|? ? N _]; subst. apply N. rewrite <- E. now apply in_map.
    + cbn [andb]. destruct (Nat.eqb_spec (kv_vc e') (kv_kc e)) as [E|_]; [exfalso; apply A; now rewrite E|]. exact C.
  - intros E. specialize (H4 E). cbn in H4. now inversion H4.
Qed.

(** Forgetting the newest entry without giving its cells back. *)
Lemma hinv_drop rc G h r e : hinv rc G h (r ++ [e]) -> hinv rc G h r.
Proof.
  intros [H1 H2 H3 H4]. split.
  - intros c Hc. destruct (H1 c Hc) as [L R]. split; [exact L|]. rewrite occ_app in R. pose proof (occ_nonneg rc [e] c). lia.
  - intros x Hx. apply H2, in_or_app. now left.
  - intros x Hx. apply H3, in_or_app. now left.
  - intros E. specialize (H4 E). rewrite map_app in H4. apply NoDup_remove_1 in H4. now rewrite app_nil_r in H4.
Qed.

(** A value that can be stored. *)
Definition usable (rc : bool) (G : nat -> Prop) (k : kv) : Prop := G (kv_kc k) /\ (rc = true -> G (kv_vc k)).

Lemma hinv_make rc G h r k h' e : hinv rc G h r -> usable rc G k ->
  kv_new h (RRef (kv_key k) (kv_kc k)) (if rc then RRef (kv_val k) (kv_vc k) else RStr (kv_val k)) = (h', e) ->
  hinv rc G h' (r ++ [e]) /\ kv_key e = kv_key k /\ kv_val e = kv_val k.
Proof.
  intros [H1 H2 H3 H4] [U1 U2] E. unfold kv_new in E. cbn [ref_new rarg_str] in E. destruct (H1 _ U1) as [Lk _]. destruct rc; cbn [ref_new rarg_str] in E; injection E as <- <-; (split; [|auto]).
  - specialize (U2 eq_refl). destruct (H1 _ U2) as [Lv _]. split.
    + intros c Hc. destruct (H1 c Hc) as [L R]. rewrite !upd_length. split; [exact L|]. rewrite !refcnt_incr, upd_length, occ_app, occ_cons.
      assert (Lb : Nat.ltb c (length h) = true) by (now apply Nat.ltb_lt). rewrite Lb, !andb_true_r. unfold cells, occ at 2. cbn [kv_kc kv_vc flat_map count_occ].
      destruct (Nat.eq_dec (kv_kc k) c), (Nat.eq_dec (kv_vc k) c), (Nat.eqb_spec c (kv_vc k)), (Nat.eqb_spec c (kv_kc k)); try congruence; lia.
    + intros x Hx. apply in_app_or in Hx as [Hx|[<-|[]]]; [now apply H2|exact U1].
    + intros x Hx. apply in_app_or in Hx as [Hx|[<-|[]]]; [exact (H3 x Hx)|exact U2].
    + discriminate.
  - assert (Nv : forall c, G c -> c <> length h) by (intros c Hc ->; destruct (H1 _ Hc); lia).
    split.
    + intros c Hc. destruct (H1 c Hc) as [L R]. rewrite app_length, upd_length. split; [lia|]. rewrite refcnt_new, refcnt_incr, upd_length, occ_app, occ_cons.
      destruct (Nat.eqb_spec c (length h)); [now apply Nv in Hc|].
      assert (Lb : Nat.ltb c (length h) = true) by (now apply Nat.ltb_lt). rewrite Lb, !andb_true_r. unfold cells, occ at 2. cbn [kv_kc kv_vc flat_map count_occ].
      destruct (Nat.eq_dec (kv_kc k) c), (Nat.eqb_spec c (kv_kc k)); try congruence; lia.
    + intros x Hx. apply in_app_or in Hx as [Hx|[<-|[]]]; [now apply H2|exact U1].
    + intros x Hx. rewrite app_length, upd_length, refcnt_new, refcnt_incr, upd_length. apply in_app_or in Hx as [Hx|[<-|[]]].
      * destruct (H3 x Hx) as (A & B & C). split; [exact A|]. split; [cbn; lia|]. destruct (Nat.eqb_spec (kv_vc x) (length h)); [reflexivity|].
        destruct (Nat.eqb_spec (kv_vc x) (kv_kc k)) as [E|_]; [exfalso; apply A; now rewrite E|]. exact C.
      * cbn [kv_vc]. rewrite !upd_length, Nat.eqb_refl. split; [|split; [cbn; lia|reflexivity]]. intros C. now apply (Nv _ C).
    + intros _. rewrite map_app. apply NoDup_snoc; [now apply H4|]. cbn [kv_vc]. rewrite upd_length. intros C. apply in_map_iff in C as (x & Ex & Hx). destruct (H3 x Hx) as (_ & B & _). lia.
Qed.

(** Temporary entries: their cells stay referred to. *)
Lemma hinv_grow rc (G : nat -> Prop) h h' r (F : nat -> Prop) : hinv rc G h r -> (length h <= length h')%nat ->
  (forall c, G c -> refcnt h c <= refcnt h' c) -> (forall c, (c < length h)%nat -> ~ G c -> refcnt h' c = refcnt h c) ->
  (forall c, F c -> (length h <= c < length h')%nat /\ 1 <= refcnt h' c) -> hinv rc (fun c => G c \/ F c) h' r.
Proof.
  intros [H1 H2 H3 H4] Hl Hg Hn Hf. assert (B : forall c, (length h <= c)%nat -> occ rc r c = 0).
  { intros c Hc. unfold occ. enough (E : count_occ Nat.eq_dec (flat_map (cells rc) r) c = 0%nat) by (rewrite E; reflexivity).
    apply count_occ_not_In. intros C. apply in_flat_map in C as (e & He & C). unfold cells in C. specialize (H3 e He). pose proof (H2 e He) as Hk.
    destruct (H1 _ Hk) as [Lk _]. destruct rc; cbn [In] in C; [destruct (H1 _ H3) as [Lv _]|]; intuition lia. }
  split.
  - intros c [Hc|Hc].
    + destruct (H1 c Hc) as [L R]. specialize (Hg c Hc). split; lia.
    + destruct (Hf c Hc) as [L R]. rewrite B by lia. split; lia.
  - intros e He. left. now apply H2.
  - intros e He. specialize (H3 e He). destruct rc; [now left|]. destruct H3 as (A & L & R). split; [|split; [lia|rewrite Hn; auto]].
    intros [C|C]; [contradiction|]. apply Hf in C as [C _]. lia.
  - exact H4.
Qed.

(** ** The table *)

Definition ringkv (l : lru) : list kv := map fst (l_ring l).

Record tinv (c : cfg) (G : nat -> Prop) (s : storage) : Prop := {
  ti_sinv : sinv c s;
  ti_heap : hinv (c_refcnt c) G (s_heap s) (ringkv (s_lru s));
  ti_static : forall e, In e (ringkv (s_static s)) -> G (kv_kc e) /\ G (kv_vc e);
  ti_bytes : l_bytes (s_lru s) = vsum (c_refcnt c) (ringkv (s_lru s));
  ti_max : l_bytes (s_lru s) <= Z.max 0 (c_max_byte_size c) }.

Lemma vlen_nonneg rc e : 0 <= vlen rc e.
Proof. unfold vlen. destruct rc; lia. Qed.

Lemma insert_bytes c G s e s' n p : cfg_ok c ->
  sinv c s -> hinv (c_refcnt c) G (s_heap s) (ringkv (s_lru s) ++ [e]) ->
  (forall e, In e (ringkv (s_static s)) -> G (kv_kc e) /\ G (kv_vc e)) ->
  l_bytes (s_lru s) = vsum (c_refcnt c) (ringkv (s_lru s)) -> l_bytes (s_lru s) <= Z.max 0 (c_max_byte_size c) ->
  insert_val s e = Ok (s', n, p) -> tinv c G s'.
Proof.
  intros Hc Hs Hh Hst Hb Hm E. destruct (insert_spec c s e Hc Hs) as (s2 & n2 & p2 & kept & E2 & Hs' & Est & Er & Er').
  assert (s2 = s' /\ n2 = n /\ p2 = p) as (-> & -> & ->) by (repeat split; congruence). clear E2.
  destruct (insert_val_ok s e) as (h' & l' & n2 & p2 & E2 & Hn). assert (Es' : s' = mk_storage h' (s_static s) l') by congruence. assert (n2 = n) by congruence. subst n2. clear E2.
  set (rc := c_refcnt c) in *.
  pose (Inv := fun x : heap * lru => hinv rc G (fst x) (ringkv (snd x) ++ [e]) /\ l_bytes (snd x) = vsum rc (ringkv (snd x)) /\ l_bytes (snd x) <= Z.max 0 (c_max_byte_size c)).
  assert (R : forall ok h1 l1 p1, reserve (s_heap s) (s_lru s) e 1 = (ok, h1, l1, p1) -> Inv (h1, l1)).
  { intros ok h1 l1 p1 Er1. refine (reserve_rel (fun x y => Inv x -> Inv y) _ _ _ _ _ _ _ _ _ _ _ Er1 _); [auto|auto| |].
    2: { split; [exact Hh|]. split; [exact Hb|exact Hm]. }
    1: { intros h2 l2 h3 l3 e3 Ep (I1 & I2 & I3). cbn [fst snd] in *. unfold pop_one in Ep. destruct (l_ring l2) as [|x r] eqn:Erg; [discriminate|]. injection Ep as <- <- <-.
      unfold Inv, ringkv in *. cbn [fst snd set_ring l_ring l_bytes]. rewrite Erg in *. cbn [map app] in *.
      pose proof (hinv_size _ _ _ _ _ I1 (or_introl eq_refl)) as Sz. split; [now apply hinv_pop|]. cbn [vsum fold_right] in I2. fold (vsum rc (map fst r)) in I2.
      pose proof (vlen_nonneg rc (fst x)). rewrite Sz. split; lia. } }
  subst s'. split; cbn [s_heap s_static s_lru]; auto.
  - destruct n as [q|].
    + destruct Hn as (l1 & R1 & S1 & _ & Rg). apply R in R1 as (I1 & _). cbn [fst snd] in I1. unfold ringkv in *. rewrite Rg, map_app. exact I1.
    + destruct Hn as (ok & R1 & _). apply R in R1 as (I1 & _). now apply hinv_drop in I1.
  - destruct n as [q|].
    + destruct Hn as (l1 & R1 & S1 & _ & Rg). apply R in R1 as (I1 & I2 & _). cbn [fst snd] in *. apply store_ring in S1 as (_ & _ & _ & _ & _ & ->).
      unfold ringkv in *. rewrite Rg, map_app, vsum_app. cbn [map fst]. rewrite (hinv_size _ _ _ _ e I1) by (apply in_or_app; right; now left). rewrite I2. unfold vsum at 3. cbn [fold_right]. fold rc. lia.
    + destruct Hn as (ok & R1 & _). apply R in R1 as (_ & I2 & _). exact I2.
  - destruct n as [q|].
    + destruct Hn as (l1 & R1 & S1 & _ & Rg). pose proof (reserve_popped _ _ _ _ _ _ _ _ R1) as (_ & Eok). destruct (Eok eq_refl) as [_ A].
      destruct (A _ (si_maxb _ _ Hs)) as [_ A2]. apply store_ring in S1 as (_ & _ & _ & _ & _ & ->). lia.
    + destruct Hn as (ok & R1 & _). apply R in R1 as (_ & _ & I3). exact I3.
Qed.

Lemma evict_store gid p : forall y, y_store (fold_left (y_evict gid) p y) = y_store y.
Proof. induction p as [|e p IH]; intros y; cbn [fold_left]; [reflexivity|]. now rewrite IH. Qed.
Lemma yset_store gid y z : y_store (y_set gid y z) = y_store y.
Proof. unfold y_set. destruct (y_orphan y); reflexivity. Qed.

Lemma store_kv_bytes c G gid y k y' n : cfg_ok c -> tinv c G (y_store y) -> usable (c_refcnt c) G k -> store_kv c gid y k = Ok (y', n) -> tinv c G (y_store y').
Proof.
  intros Hc [T1 T2 T3 T4 T5] U E. unfold store_kv in E. destruct (kv_new _ _ _) as [h e] eqn:Ek.
  destruct (insert_val _ e) as [[[s' n'] p]|] eqn:Ei; [|discriminate]. cbn [bind] in E. injection E as <- _. rewrite evict_store. cbn [y_store].
  destruct (hinv_make _ _ _ _ _ _ _ T2 U Ek) as (T2' & _).
  apply (insert_bytes c G (mk_storage h (s_static (y_store y)) (s_lru (y_store y))) e s' n' p); auto. now apply sinv_heap.
Qed.

Lemma store_loop_bytes c G gid : forall later y y', cfg_ok c -> tinv c G (y_store y) -> Forall (usable (c_refcnt c) G) later ->
  store_loop c gid y later = Ok y' -> tinv c G (y_store y').
Proof.
  induction later as [|k r IH]; intros y y' Hc T F E; cbn [store_loop] in E; [injection E as <-; exact T|]. inversion F as [|? ? F1 F2]; subst.
  destruct (store_kv c gid y k) as [[y1 n]|] eqn:E1; [|discriminate]. cbn [bind] in E. apply (store_kv_bytes c G) in E1; auto.
  apply IH in E; auto. destruct n; [destruct (c_implicit c)|]; [now rewrite yset_store|exact E1|exact E1].
Qed.

Lemma adjust_loop_bytes c G gid : forall later y y', cfg_ok c -> tinv c G (y_store y) -> Forall (fun p => usable (c_refcnt c) G (fst p)) later ->
  adjust_loop c gid y later = Ok y' -> tinv c G (y_store y').
Proof.
  induction later as [|[k old] r IH]; intros y y' Hc T F E; cbn [adjust_loop] in E; [injection E as <-; exact T|]. cbv zeta in E. inversion F as [|? ? F1 F2]; subst.
  set (y0 := if zmem old (y_cur gid y) then _ else y) in *.
  assert (E0 : y_store y0 = y_store y) by (unfold y0; destruct (zmem _ _); [apply yset_store|reflexivity]).
  destruct (store_kv c gid y0 k) as [[y1 n]|] eqn:E1; [|discriminate]. cbn [bind] in E. apply (store_kv_bytes c G) in E1; auto; [|now rewrite E0].
  apply IH in E; auto. destruct n; [now rewrite yset_store|exact E1].
Qed.

Lemma lookup_in l q e : lookup l q = Ok e -> In e (l_ring l).
Proof.
  unfold lookup. destruct (idx_from_left l q) as [i|]; [|discriminate]. cbn [bind]. destruct (dq_get (l_ring l) i) as [x|] eqn:E; [|discriminate]. cbn [bind].
  destruct (snd x =? q); [|discriminate]. intros [= <-]. unfold dq_get in E. cbv zeta in E. destruct (_ && _); [|discriminate].
  destruct (nth_error _ _) eqn:En; [|discriminate]. injection E as <-. eapply nth_error_In; eauto.
Qed.

Lemma lookup_usable c G s i e q : hinv (c_refcnt c) G (s_heap s) (ringkv (s_lru s)) -> (forall e, In e (ringkv (s_static s)) -> G (kv_kc e) /\ G (kv_vc e)) ->
  lookup_idx s i = Ok (e, q) -> usable (c_refcnt c) G e.
Proof.
  intros [H1 H2 H3 _] Hs E. unfold lookup_idx in E. destruct (i <? ring_len (s_static s)); apply lookup_in in E; apply (in_map fst) in E; cbn [fst] in E.
  - split; [|intros _]; apply Hs; exact E.
  - split; [now apply H2|]. intros Erc. specialize (H3 e E). rewrite Erc in H3. exact H3.
Qed.

(** A temporary entry. *)
Lemma temp_bytes rc (G : nat -> Prop) h r k v h' e : hinv rc G h r -> (match k with RStr _ => True | RRef _ c => G c end) ->
  kv_new h k (RStr v) = (h', e) -> exists G' : nat -> Prop, (forall c, G c -> G' c) /\ hinv rc G' h' r /\ G' (kv_kc e) /\ G' (kv_vc e).
Proof.
  intros H Hk E. unfold kv_new in E. destruct k as [k|k c]; cbn [ref_new rarg_str] in E; injection E as <- <-; cbn [kv_kc kv_vc].
  - exists (fun x => G x \/ (x = length h \/ x = S (length h))). split; [now left|]. assert (L : length (h ++ [1]) = S (length h)) by (rewrite app_length; cbn; lia). split.
    + assert (D : forall x, (x < length h)%nat -> refcnt ((h ++ [1]) ++ [1]) x = refcnt h x).
      { intros x Hx. rewrite !refcnt_new, L. destruct (Nat.eqb_spec x (S (length h))); [lia|]. destruct (Nat.eqb_spec x (length h)); [lia|reflexivity]. }
      apply (hinv_grow rc G h); auto.
      * rewrite app_length. lia.
      * intros x Hx. rewrite D; [lia|]. now apply (hi_G _ _ _ _ H).
      * intros x Hx. rewrite app_length, L. cbn [length]. split; [lia|]. rewrite !refcnt_new, L.
        destruct Hx as [->| ->]; rewrite ?Nat.eqb_refl; [|lia]. destruct (Nat.eqb_spec (length h) (S (length h))); lia.
    + rewrite L. auto.
  - exists (fun x => G x \/ x = length h). split; [now left|]. rewrite upd_length. split; [|auto].
    assert (Lc : (c < length h)%nat) by (now apply (hi_G _ _ _ _ H)).
    apply (hinv_grow rc G h); auto.
    + rewrite app_length, upd_length. lia.
    + intros x Hx. rewrite refcnt_new, refcnt_incr, upd_length. assert (x < length h)%nat by (now apply (hi_G _ _ _ _ H)). destruct (Nat.eqb_spec x (length h)); [lia|]. destruct (_ && _); lia.
    + intros x Hx Ng. rewrite refcnt_new, refcnt_incr, upd_length. destruct (Nat.eqb_spec x (length h)); [lia|]. destruct (Nat.eqb_spec x c) as [->|]; [contradiction|reflexivity].
    + intros x ->. rewrite app_length, upd_length, refcnt_new, upd_length, Nat.eqb_refl. cbn [length]. split; lia.
Qed.

Lemma toggle_heap e x i : x_heap (toggle e x i) = x_heap x /\ x_later (toggle e x i) = x_later x.
Proof. unfold toggle. destruct e; auto. Qed.
Lemma toggle_fold_heap e l : forall x, x_heap (fold_left (toggle e) l x) = x_heap x /\ x_later (fold_left (toggle e) l x) = x_later x.
Proof. induction l as [|i l IH]; intros x; cbn [fold_left]; [auto|]. destruct (IH (toggle e x i)) as [-> ->]. apply toggle_heap. Qed.

Record xinv (c : cfg) (s : storage) (G : nat -> Prop) (x : xstate) : Prop := {
  xi_heap : hinv (c_refcnt c) G (x_heap x) (ringkv (s_lru s));
  xi_static : forall e, In e (ringkv (s_static s)) -> G (kv_kc e) /\ G (kv_vc e);
  xi_later : Forall (fun e => G (kv_kc e) /\ G (kv_vc e)) (x_later x) }.

Lemma exec_loop_bytes c s : forall ops x x' G, xinv c s G x -> exec_loop s x ops = Ok x' -> exists G' : nat -> Prop, (forall c, G c -> G' c) /\ xinv c s G' x'.
Proof.
  induction ops as [|o ops IH]; intros x x' G X E; cbn [exec_loop] in E; [injection E as <-; exists G; auto|].
  destruct (exec_op s x o) as [x1|] eqn:E1; [|discriminate]. cbn [bind] in E.
  assert (Same : x_heap x1 = x_heap x -> x_later x1 = x_later x -> exists G' : nat -> Prop, (forall c, G c -> G' c) /\ xinv c s G' x').
  { intros A B. apply (IH x1 x' G); [|exact E]. destruct X as [X1 X2 X3]. split; [now rewrite A|exact X2|now rewrite B]. }
  assert (New : forall k v h e, (match k with RStr _ => True | RRef _ cc => G cc end) -> kv_new (x_heap x) k (RStr v) = (h, e) -> x_heap x1 = h -> x_later x1 = x_later x ++ [e] ->
     exists G' : nat -> Prop, (forall c, G c -> G' c) /\ xinv c s G' x').
  { intros k v h e Hk Ek A B. destruct X as [X1 X2 X3]. destruct (temp_bytes _ _ _ _ _ _ _ _ X1 Hk Ek) as (G1 & I1 & I2 & I3 & I4).
    destruct (IH x1 x' G1) as (G' & J1 & J2); [|exact E|exists G'; split; [auto|exact J2]]. split; [now rewrite A| |].
    - intros e' He. destruct (X2 e' He). auto.
    - rewrite B. apply Forall_app. split; [|repeat constructor; assumption]. eapply Forall_impl; [|exact X3]. cbn. intros a [Ha Hb]. auto. }
  destruct o as [e i|e i st|e i v|e k v]; cbn [exec_op] in E1.
  - injection E1 as <-. destruct (toggle_heap e x i). now apply Same.
  - destruct (xrange_fits st (i + 1)); [|discriminate]. injection E1 as <-. destruct (toggle_fold_heap e (xrange st (i + 1)) x). now apply Same.
  - destruct (lookup_idx s i) as [[k q]|] eqn:El; [|discriminate]. cbn [bind] in E1. cbv zeta in E1. destruct e; [injection E1 as <-; now apply Same|].
    destruct (kv_new _ _ _) as [h n] eqn:Ek. injection E1 as <-. apply (New _ _ _ _ ) with (2 := Ek); [|reflexivity|reflexivity].
    destruct X as [X1 X2 X3]. pose proof (lookup_usable c G (mk_storage (x_heap x) (s_static s) (s_lru s)) i k q X1 X2 El) as [U _]. exact U.
  - cbv zeta in E1. destruct e; [injection E1 as <-; now apply Same|]. destruct (kv_new _ _ _) as [h n] eqn:Ek. injection E1 as <-.
    apply (New _ _ _ _) with (2 := Ek); auto.
Qed.

Lemma mapm_in {A B} (f : A -> res B) l l' y : mapm f l = Ok l' -> In y l' -> exists x, In x l /\ f x = Ok y.
Proof.
  revert l'. induction l as [|x l IH]; intros l' E H; cbn [mapm] in E; [injection E as <-; contradiction|].
  destruct (f x) as [z|] eqn:Ef; [|discriminate]. cbn [bind] in E. destruct (mapm f l) as [r|]; [|discriminate]. cbn [bind] in E. injection E as <-.
  destruct H as [<-|H]; [exists x; split; [now left|exact Ef]|]. destruct (IH r eq_refl H) as (a & Ha & Hb). exists a. split; [now right|exact Hb].
Qed.

(** Whatever instructions are executed. *)
Lemma execute_bytes ref k ops gid k' hd G : cfg_ok (k_cfg k) -> tinv (k_cfg k) G (k_store k) -> execute_ops ref k ops gid = Ok (k', hd) ->
  k_cfg k' = k_cfg k /\ exists G', tinv (k_cfg k') G' (k_store k').
Proof.
  intros Hc T E. unfold execute_ops in E. cbv zeta in E. set (c := k_cfg k) in *. set (s := k_store k) in *.
  destruct (lru_to_hg_ops c s ops) as [ops'|]; [|discriminate]. cbn [bind] in E.
  destruct (exec_loop s _ ops') as [x|] eqn:Ex; [|discriminate]. cbn [bind] in E.
  destruct (append_refs _ _ _) as [hd'|]; [|discriminate]. cbn [bind] in E.
  match type of E with context [if c_hg_adjust c then ?M else Ok []] => destruct (if c_hg_adjust c then M else Ok []) as [later|] eqn:El; [|discriminate] end. cbn [bind] in E.
  destruct (store_loop c gid _ (x_later x)) as [y1|] eqn:E1; [|discriminate]. cbn [bind] in E. destruct (adjust_loop c gid y1 later) as [y2|] eqn:E2; [|discriminate]. cbn [bind] in E.
  injection E as <- _. cbn [k_cfg k_store]. split; [reflexivity|].
  destruct T as [T1 T2 T3 T4 T5].
  assert (X0 : xinv c s G (mk_x (s_heap s) [] [] [] [])) by (split; [exact T2|exact T3|constructor]).
  destruct (exec_loop_bytes c s ops' _ x G X0 Ex) as (G' & _ & [X1 X2 X3]).
  exists G'. assert (T' : tinv c G' (mk_storage (x_heap x) (s_static s) (s_lru s))) by (split; auto; now apply sinv_heap).
  eapply adjust_loop_bytes; [exact Hc| | |exact E2].
  - eapply store_loop_bytes; [exact Hc| | |exact E1]; [rewrite yset_store; exact T'|].
    eapply Forall_impl; [|exact X3]. cbn. intros a [Ha Hb]. split; auto.
  - destruct (c_hg_adjust c); [|injection El as <-; constructor]. apply Forall_forall. intros [e i] He. cbn [fst].
    destruct (mapm_in _ _ _ _ El He) as (j & _ & Ej). cbn beta in Ej. destruct (lookup_idx _ j) as [[e' q]|] eqn:Elk; [|discriminate]. cbn [bind] in Ej. injection Ej as -> ->.
    eapply (lookup_usable c G' (mk_storage (x_heap x) (s_static s) (s_lru s))); eauto.
Qed.

Definition fresh_table (r : res (heap * lru)) : bool :=
  match r with
  | Ok (h, st) => forallb (fun n => n =? 1) h && forallb (fun e => Nat.ltb (kv_kc (fst e)) (length h) && Nat.ltb (kv_vc (fst e)) (length h)) (l_ring st)
  | Err _ => false
  end.
Lemma fresh_table_new : fresh_table (store_all [] (lru_new None None None 0) default_kvs) = true.
Proof. vm_compute. reflexivity. Qed.

Lemma fresh_bytes c h0 st : fresh_table (Ok (h0, st)) = true ->
  sinv c (mk_storage h0 st (lru_new (Some (c_max_byte_size c)) (Some (c_max_entries c)) (Some (c_max_index c)) 65)) ->
  exists G, tinv c G (mk_storage h0 st (lru_new (Some (c_max_byte_size c)) (Some (c_max_entries c)) (Some (c_max_index c)) 65)).
Proof.
  cbn [fresh_table]. intros B Hs.
  apply andb_prop in B as [B1 B2]. rewrite forallb_forall in B1, B2.
  assert (R1 : forall x, (x < length h0)%nat -> refcnt h0 x = 1).
  { intros x Hx. unfold refcnt. apply Z.eqb_eq. apply B1. now apply nth_In. }
  exists (fun x => (x < length h0)%nat). split; cbn [s_heap s_static s_lru].
  - exact Hs.
  - split; cbn; try contradiction; [|constructor]. intros x Hx. rewrite R1 by exact Hx. unfold occ. cbn. split; [exact Hx|lia].
  - intros e He. unfold ringkv in He. apply in_map_iff in He as (p & <- & Hp). specialize (B2 p Hp). apply andb_prop in B2 as [A B]. apply Nat.ltb_lt in A, B. auto.
  - reflexivity.
  - cbn. lia.
Qed.

Lemma storage_fresh mb me mi : exists h0 st, storage_new mb me mi = Ok (mk_storage h0 st (lru_new (Some mb) (Some me) (Some mi) 65)) /\ fresh_table (Ok (h0, st)) = true.
Proof.
  pose proof fresh_table_new as F. destruct (storage_new_ok mb me mi) as (h1 & st1 & E1 & (_ & L & _)). revert E1.
  unfold storage_new. destruct (store_all _ _ _) as [[h0 st]|]; [|discriminate]. cbn [bind]. intros E1. exists h0, st. split; [|exact F].
  injection E1 as -> -> Er. congruence.
Qed.

Lemma new_bytes o k : code_new o = Ok k -> k_cfg k = config o /\ exists G, tinv (k_cfg k) G (k_store k).
Proof.
  destruct (code_new_ok o) as (k' & E' & Ec & Hs & _). intros E. assert (k' = k) by congruence. subst k'. clear E. split; [exact Ec|]. revert E'.
  destruct (storage_fresh (c_max_byte_size (config o)) (c_max_entries (config o)) (c_max_index (config o))) as (h0 & st & E & F).
  unfold code_new. cbv zeta. rewrite E. cbn [bind]. intros Ek. assert (Es : k_store k = mk_storage h0 st (lru_new (Some (c_max_byte_size (config o))) (Some (c_max_entries (config o))) (Some (c_max_index (config o))) 65)) by (now injection Ek as <-).
  rewrite Ec. rewrite Es in *. now apply fresh_bytes.
Qed.
