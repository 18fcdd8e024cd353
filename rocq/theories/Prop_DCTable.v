(** * Property C123: the table inside delta2_bohe's codec. *)
From Coq Require Import String List NArith ZArith Bool Arith Lia Permutation.
From Verif Require Import PyBase Small_Model LB_Model Prop_LB DB_Model DC_Model DC_Proofs PyStr.
Import ListNotations.
Open Scope Z_scope.
Open Scope py_scope.

(** ** Specification *)

(** Whatever a codec was used for, in either direction; what arrives may be anything. *)
Inductive used : code -> Prop :=
| used_new : used code_new
| used_make ord enc gid c headers c' i : used c -> make_operations ord enc gid c headers = Ok (c', i) -> used c'
| used_execute gid c ops c' : used c -> execute gid c ops = Ok c' -> used c'
| used_generate gid c c' out : used c -> generate gid c = Ok (c', out) -> used c'.
(** A codec used for sending only. *)
Inductive sending : code -> Prop :=
| sending_new : sending code_new
| sending_make ord enc gid c headers c' i : sending c -> (forall l, Permutation (ord l) l) -> make_operations ord enc gid c headers = Ok (c', i) -> sending c'.

(** Keys and values, counted in octets. *)
Definition weight (e : kv) : Z := Z.of_nat (length (q_key e)) + Z.of_nat (length (q_val e)).
Definition weights (l : list kv) : Z := fold_right (fun e n => weight e + n) 0 l.
(** A number that stands for one of the 65 fixed entries or an entry of the table. *)
Definition in_table (ring : list kv) (i : Z) : Prop := 0 <= i < 65 \/ exists e, In e ring /\ q_seq e = i.

(** ** Proofs *)

Definition conv (e : kv) : bkv := mk_bkv (q_key e) (q_val e) (q_seq e).
Definition as_b (l : lru) : blru := mk_blru (map conv (r_ring l)) (r_bytes l) (r_next l).
Definition lim : blim := mk_blim 16384 1024 65536 65.

Lemma conv_size e : bk_size (conv e) = q_size e.
Proof. reflexivity. Qed.

Section Pops.
  Context (next : Z).
  Lemma pop_items_is ring : forall bytes gs ring' bytes' gs' fuel, (length ring <= fuel)%nat -> pop_items ring bytes gs = Ok (ring', bytes', gs') ->
    b_pop_while (fun l => lim_items lim <? Z.of_nat (length (bl_ring l)) + 1) fuel (mk_blru (map conv ring) bytes next) = (Ok tt, mk_blru (map conv ring') bytes' next) /\
    (forall P : groups -> list kv -> Prop, (forall gs e r, P gs (e :: r) -> P (gs_drop gs (q_seq e)) r) -> P gs ring -> P gs' ring').
  Proof.
    induction ring as [|e ring IH]; intros bytes gs ring' bytes' gs' fuel Hf E; cbn [pop_items] in E.
    - change (max_items <? Z.of_nat (length (@nil kv)) + 1) with false in E. cbn iota in E. assert (ring' = [] /\ bytes' = bytes /\ gs' = gs) as (-> & -> & ->) by (repeat split; congruence).
      split; [destruct fuel; reflexivity|auto].
    - assert (Ec : (lim_items lim <? Z.of_nat (length (bl_ring (mk_blru (map conv (e :: ring)) bytes next))) + 1) = (max_items <? Z.of_nat (length (e :: ring)) + 1))
        by (cbn [bl_ring lim_items lim]; now rewrite map_length).
      destruct fuel as [|fuel]; [cbn in Hf; lia|]. cbn [b_pop_while]. rewrite Ec. destruct (max_items <? Z.of_nat (length (e :: ring)) + 1) eqn:Em.
      + cbn [b_pop bl_ring map bl_bytes bl_next]. rewrite conv_size. destruct (IH _ _ _ _ _ fuel ltac:(cbn in Hf; lia) E) as [H1 H2]. split; [exact H1|]. intros P HP H. apply H2; [exact HP|]. now apply HP.
      + assert (ring' = e :: ring /\ bytes' = bytes /\ gs' = gs) as (-> & -> & ->) by (repeat split; congruence). split; [reflexivity|auto].
  Qed.
  Lemma pop_bytes_is size ring : forall bytes gs ring' bytes' gs' fuel, (length ring <= fuel)%nat -> pop_bytes size ring bytes gs = Ok (ring', bytes', gs') ->
    b_pop_while (fun l => lim_bytes lim <? bl_bytes l + size) fuel (mk_blru (map conv ring) bytes next) = (Ok tt, mk_blru (map conv ring') bytes' next) /\
    (forall P : groups -> list kv -> Prop, (forall gs e r, P gs (e :: r) -> P (gs_drop gs (q_seq e)) r) -> P gs ring -> P gs' ring').
  Proof.
    induction ring as [|e ring IH]; intros bytes gs ring' bytes' gs' fuel Hf E; cbn [pop_bytes] in E.
    - assert (Ec : (lim_bytes lim <? bl_bytes (mk_blru (map conv []) bytes next) + size) = (max_bytes <? bytes + size)) by reflexivity.
      destruct (max_bytes <? bytes + size) eqn:Em; [discriminate|]. assert (ring' = [] /\ bytes' = bytes /\ gs' = gs) as (-> & -> & ->) by (repeat split; congruence).
      split; [|auto]. destruct fuel; cbn [b_pop_while]; now rewrite Ec.
    - assert (Ec : (lim_bytes lim <? bl_bytes (mk_blru (map conv (e :: ring)) bytes next) + size) = (max_bytes <? bytes + size)) by reflexivity.
      destruct fuel as [|fuel]; [cbn in Hf; lia|]. cbn [b_pop_while]. rewrite Ec. destruct (max_bytes <? bytes + size) eqn:Em.
      + cbn [b_pop bl_ring map bl_bytes bl_next]. rewrite conv_size. destruct (IH _ _ _ _ _ fuel ltac:(cbn in Hf; lia) E) as [H1 H2]. split; [exact H1|]. intros P HP H. apply H2; [exact HP|]. now apply HP.
      + assert (ring' = e :: ring /\ bytes' = bytes /\ gs' = gs) as (-> & -> & ->) by (repeat split; congruence). split; [reflexivity|auto].
  Qed.
End Pops.

Lemma insert_is c k v c' i : insert_val c k v = Ok (c', i) ->
  as_b (k_lru c') = b_run lim (as_b (k_lru c)) [BReserve (slen v + slen k) 1; BStore k v] /\
  (forall P : groups -> list kv -> Prop, (forall gs e r, P gs (e :: r) -> P (gs_drop gs (q_seq e)) r) -> P (k_groups c) (r_ring (k_lru c)) ->
   exists ring, r_ring (k_lru c') = ring ++ [mk_kv i k v] /\ P (k_groups c') ring).
Proof.
  unfold insert_val. intros E. apply bind_ok in E as ([[r1 b1] g1] & E1 & E). apply bind_ok in E as ([[r2 b2] g2] & E2 & E). apply bind_ok in E as ([l n] & E3 & E).
  assert (c' = mk_code l g2 /\ i = n) as [-> ->] by (split; congruence). cbn [k_lru k_groups].
  assert (L1 : (length (r_ring (k_lru c)) <= length (map conv (r_ring (k_lru c))))%nat) by now rewrite map_length.
  assert (L2 : (length r1 <= length (map conv r1))%nat) by now rewrite map_length.
  destruct (pop_items_is (r_next (k_lru c)) _ _ _ _ _ _ _ L1 E1) as [H1 P1].
  destruct (pop_bytes_is (r_next (k_lru c)) _ _ _ _ _ _ _ _ L2 E2) as [H2 P2].
  unfold store in E3. cbn [r_bytes r_ring r_next] in E3. destruct (max_bytes <? b2 + (slen v + slen k)) eqn:Eb; [discriminate|].
  destruct (max_items <? Z.of_nat (length r2) + 1) eqn:Ei; [discriminate|].
  assert (l = mk_lru (r2 ++ [mk_kv (r_next (k_lru c)) k v]) (b2 + (slen v + slen k)) (if max_seq <? r_next (k_lru c) + 1 then offset else r_next (k_lru c) + 1) /\ n = r_next (k_lru c)) as [-> ->] by (split; congruence).
  split.
  - unfold b_run. cbn [fold_left b_step]. unfold b_reserve. change (lim_items lim =? 0) with false. change (lim_bytes lim =? 0) with false. cbn iota.
    unfold as_b at 2 3 4. cbn [bl_ring]. rewrite H1. cbn [bl_ring]. rewrite H2. cbn [snd]. unfold b_store. cbn [bl_next bl_bytes bl_ring]. change (lim_bytes lim =? 0) with false. change (lim_items lim =? 0) with false.
    change (lim_seq lim =? 0) with false. cbn [negb andb]. change (bk_size (mk_bkv k v (r_next (k_lru c)))) with (slen v + slen k). rewrite map_length.
    change (lim_bytes lim) with max_bytes. change (lim_items lim) with max_items. rewrite Eb, Ei. unfold as_b. cbn [r_ring r_bytes r_next]. now rewrite map_app.
  - intros P HP H. exists r2. split; [reflexivity|]. apply P2; [exact HP|]. now apply P1.
Qed.

(** A property of codecs that insertions and changes to groups keep. *)
Definition tabled (c : code) : Prop := exists ops, as_b (k_lru c) = b_run lim (blru_new lim) ops.
Lemma tabled_groups c gs : tabled c -> tabled (mk_code (k_lru c) gs).
Proof. exact (fun H => H). Qed.
Lemma tabled_insert c k v c' i : tabled c -> insert_val c k v = Ok (c', i) -> tabled c'.
Proof. intros (ops & H) E. destruct (insert_is c k v c' i E) as [E' _]. exists (ops ++ [BReserve (slen v + slen k) 1; BStore k v]). unfold b_run in *. rewrite fold_left_app, <- H. exact E'. Qed.

Lemma toggles_lru gid is : forall c c', exec_toggles gid c is = Ok c' -> k_lru c' = k_lru c.
Proof.
  induction is as [|i is IH]; intros c c' E; cbn [exec_toggles] in E; [congruence|]. apply bind_ok in E as (c1 & E1 & E). unfold exec_toggle in E1. apply bind_ok in E1 as (g & _ & E1).
  rewrite (IH _ _ E). assert (c1 = mk_code (k_lru c) (gs_set (k_groups c) gid (g_toggle g i))) as -> by congruence. reflexivity.
Qed.
Lemma process_lru ord enc gid pairs : forall c i c' i', process_all ord enc gid c i pairs = Ok (c', i') -> k_lru c' = k_lru c.
Proof.
  induction pairs as [|[k v] pairs IH]; intros c i c' i' E; cbn [process_all] in E; [congruence|]. apply bind_ok in E as (w & _ & E). apply bind_ok in E as ([c1 i1] & E1 & E). rewrite (IH _ _ _ _ E).
  unfold process_kv in E1. apply bind_ok in E1 as (g & _ & E1). apply bind_ok in E1 as ([n|] & _ & E1).
  - assert (c1 = mk_code (k_lru c) (gs_set (k_groups c) gid (g_touch g n))) as -> by congruence. reflexivity.
  - destruct (find_idx c k w) as [[a|] [b|]]; try (destruct (g_has g b));
      match type of E1 with Ok (?x, _) = _ => assert (c1 = x) as -> by congruence end; reflexivity.
Qed.
Lemma store_tabled gid c k v c' : tabled c -> exec_store gid c k v = Ok c' -> tabled c'.
Proof.
  intros H E. unfold exec_store in E. apply bind_ok in E as ([c1 i] & E1 & E). destruct (gs_make (k_groups c1) gid) as [gs g]. apply (tabled_insert _ _ _ _ _ H) in E1.
  assert (c' = mk_code (k_lru c1) (gs_set gs gid (g_touch g i))) as -> by congruence. exact E1.
Qed.
Lemma stores_tabled gid l : forall c c', tabled c -> exec_stores gid c l = Ok c' -> tabled c'.
Proof.
  induction l as [|[k v] l IH]; intros c c' H E; cbn [exec_stores] in E; [now assert (c' = c) as -> by congruence|]. apply bind_ok in E as (c1 & E1 & E).
  exact (IH _ _ (store_tabled _ _ _ _ _ H E1) E).
Qed.
Lemma adjust_tabled gid c c' : tabled c -> adjust gid c = Ok c' -> tabled c'.
Proof.
  intros H E. unfold adjust in E. apply bind_ok in E as (g & _ & E). apply bind_ok in E as (es & _ & E). revert c H E. induction es as [|e es IH]; intros c H E; cbn [insert_each] in E; [now assert (c' = c) as -> by congruence|].
  apply bind_ok in E as ([c1 i] & E1 & E). exact (IH _ (tabled_insert _ _ _ _ _ H E1) E).
Qed.
Lemma tabled_lru c d : k_lru d = k_lru c -> tabled c -> tabled d.
Proof. unfold tabled. now intros ->. Qed.
Lemma instrs_tabled gid c i c' : tabled c -> exec_instrs gid c i = Ok c' -> tabled c'.
Proof.
  intros H E. unfold exec_instrs in E. apply bind_ok in E as (c1 & E1 & E). apply bind_ok in E as (t & _ & E). apply bind_ok in E as (c2 & E2 & E).
  apply (stores_tabled _ _ _ _ (stores_tabled _ _ _ _ (tabled_lru _ _ (toggles_lru _ _ _ _ E1) H) E2) E).
Qed.
Lemma make_tabled ord enc gid c headers c' i : tabled c -> make_operations ord enc gid c headers = Ok (c', i) -> tabled c'.
Proof.
  intros H E. unfold make_operations in E. destruct (gs_make (k_groups c) gid) as [gs g]. apply bind_ok in E as ([c1 i1] & E1 & E). apply bind_ok in E as (c2 & E2 & E).
  apply process_lru in E1. cbn [k_lru] in E1. assert (H2 : tabled c2) by exact (instrs_tabled _ _ _ _ (tabled_lru _ _ E1 H) E2).
  destruct (gs_make (k_groups c2) gid) as [gs2 g2]. apply bind_ok in E as (c3 & E3 & E). apply toggles_lru in E3. cbn [k_lru] in E3. apply bind_ok in E as (g3 & _ & E). apply bind_ok in E as (c4 & E4 & E).
  assert (c' = c4) as -> by congruence. refine (adjust_tabled _ _ _ _ E4). exact (tabled_lru _ _ E3 H2).
Qed.
Lemma execute_tabled gid c ops c' : tabled c -> execute gid c ops = Ok c' -> tabled c'.
Proof.
  intros H E. unfold execute in E. destruct (gs_make (k_groups c) gid) as [gs g]. apply bind_ok in E as (t & _ & E). apply bind_ok in E as (c1 & E1 & E).
  apply stores_tabled in E1; [|exact H]. clear H. revert c1 E1 E. induction ops as [|o ops IH]; intros c1 H E; cbn [exec_ops] in E; [now assert (c' = c1) as -> by congruence|].
  apply bind_ok in E as (c2 & E2 & E). refine (IH c2 _ E). destruct o as [n|s e|n v|k v]; cbn [exec_op] in E2.
  - assert (E3 : exec_toggles gid c1 [n] = Ok c2) by (cbn [exec_toggles]; now rewrite E2). exact (tabled_lru _ _ (toggles_lru _ _ _ _ E3) H).
  - exact (tabled_lru _ _ (toggles_lru _ _ _ _ E2) H).
  - now assert (c2 = c1) as -> by congruence.
  - exact (store_tabled _ _ _ _ _ H E2).
Qed.
Lemma used_tabled c : used c -> tabled c.
Proof.
  induction 1 as [|ord enc gid c headers c' i H IH E|gid c ops c' H IH E|gid c c' out H IH E].
  - exists []. reflexivity.
  - exact (make_tabled _ _ _ _ _ _ _ IH E).
  - exact (execute_tabled _ _ _ _ IH E).
  - unfold generate in E. apply bind_ok in E as (g & _ & E). apply bind_ok in E as (es & _ & E). apply bind_ok in E as (c1 & E1 & E). assert (c' = c1) as -> by congruence. exact (adjust_tabled _ _ _ IH E1).
Qed.

Lemma weights_held l : held (map conv l) = weights l.
Proof. induction l as [|e l IH]; [reflexivity|]. cbn [map]. change (held (conv e :: map conv l)) with (bk_size (conv e) + held (map conv l)). change (weights (e :: l)) with (weight e + weights l). rewrite IH. unfold bk_size, conv, weight. cbn [bk_val bk_key]. lia. Qed.

Lemma conv_inj e f : conv e = conv f -> e = f.
Proof. destruct e as [a b c], f as [a' b' c']. intros E. change (mk_bkv b c a = mk_bkv b' c' a') in E. congruence. Qed.
Lemma b_at_conv r i : 0 <= i -> b_at (map conv r) i = match nth_kv r i with Ok e => Ok (conv e) | Err e => Err e end.
Proof.
  intros Hi. unfold b_at, nth_kv. replace (i <? 0) with false by (symmetry; apply Z.ltb_ge; lia). cbv zeta. replace (i <? 0) with false by (symmetry; apply Z.ltb_ge; lia).
  rewrite nth_error_map. now destruct (nth_error r (Z.to_nat i)).
Qed.
Lemma lookup_is c n f : nth_error (r_ring (k_lru c)) 0 = Some f -> q_seq f <= 65536 -> 65 <= n ->
  b_lookup lim (as_b (k_lru c)) n = match lookup c n with Ok e => Ok (conv e) | Err e => Err e end.
Proof.
  intros Hf Hs Hn. unfold b_lookup, lookup. rewrite offset_65. change (lim_off lim) with 65. change (lim_seq lim =? 0) with false. change (lim_seq lim) with max_seq.
  replace (n <? 65) with false by (symmetry; apply Z.ltb_ge; lia). unfold as_b. cbn [bl_ring]. rewrite b_at_conv by lia. unfold nth_kv at 1. change (Z.to_nat 0) with 0%nat. rewrite Hf. cbn [bind].
  destruct (r_ring (k_lru c)) as [|f' r] eqn:Er; [discriminate|]. assert (f' = f) as -> by (cbn [nth_error] in Hf; congruence). cbn [bk_seq conv].
  destruct (Z.ltb_spec n (q_seq f)); cbn [bind]; apply b_at_conv; unfold max_seq; lia.
Qed.

(** ** C123 *)

(** The table accounts for what it holds and keeps to 16384 octets and 1024 entries,
    whatever arrives. *)
Theorem C123_limits : forall c, used c -> r_bytes (k_lru c) = weights (r_ring (k_lru c)) /\ weights (r_ring (k_lru c)) <= 16384 /\ (length (r_ring (k_lru c)) <= 1024)%nat.
Proof.
  intros c H. destruct (used_tabled c H) as (ops & E). destruct (C113_limits lim ops ltac:(cbn; lia) ltac:(cbn; lia)) as (A & B & C). rewrite <- E in A, B, C. unfold as_b in *. cbn [bl_ring bl_bytes] in *.
  rewrite weights_held in *. split; [exact A|]. split; [destruct C as [C|C]; [discriminate|exact C]|]. destruct B as [B|B]; [discriminate|]. unfold blen in B. rewrite map_length in B. cbn [lim_items lim] in B. lia.
Qed.
Print Assumptions C123_limits.

(** Looking up the number of an entry: the entry, as long as the numbers have not started
    again after the oldest entry; otherwise an entry 64 places newer, or an exception. *)
Theorem C123_lookup : forall c i e f, used c -> nth_error (r_ring (k_lru c)) 0 = Some f -> nth_error (r_ring (k_lru c)) i = Some e ->
  lookup c (q_seq e) = if q_seq f <=? q_seq e then Ok e else match nth_error (r_ring (k_lru c)) (i + 64) with Some x => Ok x | None => Err IndexError end.
Proof.
  intros c i e f H Hf He. destruct (C123_limits c H) as (_ & _ & Hl). destruct (used_tabled c H) as (ops & E).
  assert (Hs : spans lim) by (split; [cbn; lia|right; cbn; lia]). destruct (numbered_new lim ops Hs) as (p & Hn). rewrite <- E in Hn.
  pose proof (C113_lookup lim ops i (conv e) (conv f) Hs) as L. cbv zeta in L. rewrite <- E in L. unfold as_b in L. cbn [bl_ring] in L.
  specialize (L ltac:(right; unfold blen; rewrite map_length; cbn [lim lim_seq lim_off]; lia) (map_nth_error conv 0 _ Hf) (map_nth_error conv i _ He)).
  cbn [bk_seq conv] in L. change (Z.to_nat (lim_off lim)) with 65%nat in L. replace (i + 65 - 1)%nat with (i + 64)%nat in L by lia.
  assert (R : forall j x, nth_error (r_ring (k_lru c)) j = Some x -> 65 <= q_seq x <= 65536).
  { intros j x Hx. pose proof (numbered_nth lim _ _ _ j (conv x) Hn (map_nth_error conv j _ Hx)) as Q. cbn [bk_seq conv] in Q. rewrite Q. unfold num. change (lim_seq lim =? 0) with false. cbn iota.
    change (lim_seq lim - lim_off lim + 1) with 65472. pose proof (Z.mod_pos_bound (Z.of_nat (p + j)) 65472 ltac:(lia)). change (lim_off lim) with 65. lia. }
  change (mk_blru (map conv (r_ring (k_lru c))) (r_bytes (k_lru c)) (r_next (k_lru c))) with (as_b (k_lru c)) in L.
  rewrite (lookup_is c (q_seq e) f Hf (proj2 (R _ _ Hf)) (proj1 (R _ _ He))) in L. rewrite nth_error_map in L. destruct (q_seq f <=? q_seq e).
  - destruct (lookup c (q_seq e)) as [x|x]; [|discriminate]. f_equal. apply conv_inj. congruence.
  - destruct (nth_error (r_ring (k_lru c)) (i + 64)) as [y|]; cbn [option_map] in L; destruct (lookup c (q_seq e)) as [x|x]; try discriminate; [f_equal; apply conv_inj; congruence|congruence].
Qed.
Print Assumptions C123_lookup.

(** ** Groups of a codec that sends *)

Definition gs_live (gs : groups) (ring : list kv) : Prop := forall n g i, In (n, g) gs -> In i (g_idxs g) -> in_table ring i.
Definition live_code (c : code) : Prop := gs_live (k_groups c) (r_ring (k_lru c)).

Lemma g_remove_idxs g i j : In j (g_idxs (g_remove g i)) -> In j (g_idxs g) /\ j <> i.
Proof.
  unfold g_idxs, g_remove. cbn [g_store]. rewrite !in_map_iff. intros (x & <- & Hx). apply filter_In in Hx as [Hx Hn]. split; [now exists x|].
  apply negb_true_iff, Z.eqb_neq in Hn. exact Hn.
Qed.
Lemma gs_drop_live gs e r : gs_live gs (e :: r) -> gs_live (gs_drop gs (q_seq e)) r.
Proof.
  intros H n g i Hg Hi. unfold gs_drop in Hg. apply filter_In in Hg as [Hg _]. apply in_map_iff in Hg as ([m g0] & E & Hg). assert (m = n /\ g = g_remove g0 (q_seq e)) as [-> ->] by (split; congruence).
  apply g_remove_idxs in Hi as [Hi Hne]. destruct (H n g0 i Hg Hi) as [L|(x & [->|Hx] & Ex)]; [now left|congruence|right; eauto].
Qed.
Lemma gs_set_in gs n g m x : In (m, x) (gs_set gs n g) -> (m = n /\ x = g) \/ In (m, x) gs.
Proof.
  induction gs as [|[k y] gs IH]; cbn [gs_set].
  - intros [E|[]]. left. split; congruence.
  - destruct (N.eqb_spec k n) as [->|Hk]; cbn [In]; intros [E|H]; [left; split; congruence|tauto|tauto|]. destruct (IH H); tauto.
Qed.
Lemma gs_get_in gs n g : gs_get gs n = Some g -> In (n, g) gs.
Proof. induction gs as [|[k y] gs IH]; cbn [gs_get]; [discriminate|]. destruct (N.eqb_spec k n) as [->|Hk]; intros E; [left; congruence|right; auto]. Qed.
Lemma gs_at_in gs n g : gs_at gs n = Ok g -> In (n, g) gs.
Proof. unfold gs_at. destruct (gs_get gs n) as [x|] eqn:E; [|discriminate]. intros E'. assert (x = g) as <- by congruence. now apply gs_get_in. Qed.
Lemma gs_set_live gs ring n g : gs_live gs ring -> (forall i, In i (g_idxs g) -> in_table ring i) -> gs_live (gs_set gs n g) ring.
Proof. intros H Hg m x i Hm Hi. apply gs_set_in in Hm as [[-> ->]|Hm]; eauto. Qed.
Lemma gs_make_live gs ring n gs' g : gs_live gs ring -> gs_make gs n = (gs', g) -> gs_live gs' ring /\ forall i, In i (g_idxs g) -> in_table ring i.
Proof.
  intros H E. unfold gs_make in E. destruct (gs_get gs n) as [x|] eqn:Eg.
  - assert (gs' = gs /\ g = x) as [-> ->] by (split; congruence). split; [exact H|]. intros i Hi. exact (H n x i (gs_get_in _ _ _ Eg) Hi).
  - assert (gs' = gs_set gs n (mk_group 0 []) /\ g = mk_group 0 []) as [-> ->] by (split; congruence). split; [apply gs_set_live; [exact H|intros i []]|intros i []].
Qed.
Lemma g_touch_idxs g i j : In j (g_idxs (g_touch g i)) -> j = i \/ In j (g_idxs g).
Proof.
  unfold g_touch, g_idxs. cbn [g_store]. destruct (g_has g i).
  - rewrite map_map. rewrite in_map_iff. intros (x & E & Hx). destruct (Z.eqb_spec (fst x) i) as [Ei|Ei]; cbn [fst] in E; [now left|]. right. apply in_map_iff. eauto.
  - rewrite map_app, in_app_iff. cbn [map fst In]. intuition.
Qed.
Lemma g_toggle_idxs g i j : In j (g_idxs (g_toggle g i)) -> j = i \/ In j (g_idxs g).
Proof.
  unfold g_toggle. destruct (g_has g i).
  - intros H. right. now apply g_remove_idxs in H.
  - unfold g_idxs. cbn [g_store]. rewrite map_app, in_app_iff. cbn [map fst In]. intuition.
Qed.
Lemma g_next_idxs g : g_idxs (g_next g) = g_idxs g.
Proof. reflexivity. Qed.
Lemma g_has_in g i : g_has g i = true -> In i (g_idxs g).
Proof. unfold g_has. rewrite existsb_exists. intros (x & Hx & E). apply Z.eqb_eq in E. now subst. Qed.
Lemma g_old_in g i : In i (g_old g) -> In i (g_idxs g).
Proof. unfold g_old, g_idxs. rewrite !in_map_iff. intros (x & E & Hx). apply filter_In in Hx. exists x. tauto. Qed.
Lemma in_table_app ring e i : in_table ring i -> in_table (ring ++ [e]) i.
Proof. intros [H|(x & Hx & E)]; [now left|]. right. exists x. split; [|exact E]. apply in_or_app. now left. Qed.

Lemma insert_live c k v c' i : live_code c -> insert_val c k v = Ok (c', i) -> live_code c' /\ in_table (r_ring (k_lru c')) i.
Proof.
  intros H E. destruct (insert_is c k v c' i E) as [_ P]. destruct (P gs_live gs_drop_live H) as (ring & Er & Hl). unfold live_code. rewrite Er. split.
  - intros n g j Hg Hj. apply in_table_app. exact (Hl n g j Hg Hj).
  - right. exists (mk_kv i k v). split; [apply in_or_app; right; now left|reflexivity].
Qed.
Lemma toggles_live gid is : forall c c', live_code c -> (forall i, In i is -> in_table (r_ring (k_lru c)) i) -> exec_toggles gid c is = Ok c' -> live_code c'.
Proof.
  induction is as [|i is IH]; intros c c' H Hi E; cbn [exec_toggles] in E; [now assert (c' = c) as -> by congruence|]. apply bind_ok in E as (c1 & E1 & E). unfold exec_toggle in E1. apply bind_ok in E1 as (g & Eg & E1).
  assert (c1 = mk_code (k_lru c) (gs_set (k_groups c) gid (g_toggle g i))) as -> by congruence. apply (IH _ _) in E; [exact E| |].
  - unfold live_code. cbn [k_groups k_lru]. apply gs_set_live; [exact H|]. intros j Hj. apply g_toggle_idxs in Hj as [->|Hj]; [apply Hi; now left|]. exact (H gid g j (gs_at_in _ _ _ Eg) Hj).
  - intros j Hj. cbn [k_lru]. apply Hi. now right.
Qed.
Lemma stores_live gid l : forall c c', live_code c -> exec_stores gid c l = Ok c' -> live_code c'.
Proof.
  induction l as [|[k v] l IH]; intros c c' H E; cbn [exec_stores] in E; [now assert (c' = c) as -> by congruence|]. apply bind_ok in E as (c1 & E1 & E). refine (IH c1 c' _ E).
  unfold exec_store in E1. apply bind_ok in E1 as ([c2 i] & E2 & E1). destruct (insert_live c k v c2 i H E2) as [H2 Hi]. destruct (gs_make (k_groups c2) gid) as [gs g] eqn:Em.
  destruct (gs_make_live _ _ _ _ _ H2 Em) as [H3 Hg]. assert (c1 = mk_code (k_lru c2) (gs_set gs gid (g_touch g i))) as -> by congruence. unfold live_code. cbn [k_groups k_lru].
  apply gs_set_live; [exact H3|]. intros j Hj. apply g_touch_idxs in Hj as [->|Hj]; auto.
Qed.
Lemma static_table e : In e static -> 0 <= q_seq e < 65.
Proof.
  assert (B : forallb (fun e => (0 <=? q_seq e) && (q_seq e <? 65)) static = true) by (vm_compute; reflexivity). rewrite forallb_forall in B. intros H. specialize (B e H).
  apply andb_true_iff in B as [B1 B2]. apply Z.leb_le in B1. apply Z.ltb_lt in B2. lia.
Qed.
Lemma find_kv_in ring k v n : snd (find_kv ring k v) = Some n -> exists e, In e ring /\ q_seq e = n.
Proof.
  unfold find_kv. destruct (find _ (rev (tl ring))) as [e|] eqn:E; cbn [snd]; [|discriminate]. destruct (str_eqb (q_val e) v); [|discriminate]. intros E'. exists e. split; [|congruence].
  apply find_some in E as [E _]. apply in_rev in E. destruct ring; [destruct E|]. now right.
Qed.
Lemma find_idx_live c k v a n : find_idx c k v = (a, Some n) -> in_table (r_ring (k_lru c)) n.
Proof.
  unfold find_idx. destruct (find_kv (r_ring (k_lru c)) k v) as [[x|] [y|]] eqn:E; intros E'.
  - right. apply (find_kv_in _ k v). rewrite E. cbn [snd]. congruence.
  - left. destruct (find_kv_in static k v n) as (e & He & <-); [congruence|]. now apply static_table.
  - left. destruct (find_kv_in static k v n) as (e & He & <-); [rewrite E'; reflexivity|]. now apply static_table.
  - left. destruct (find_kv_in static k v n) as (e & He & <-); [rewrite E'; reflexivity|]. now apply static_table.
Qed.
Lemma has_kv_in c k v l n : has_kv c k v l = Ok (Some n) -> In n l.
Proof.
  induction l as [|i l IH]; cbn [has_kv]; [discriminate|]. intros E. apply bind_ok in E as (e & _ & E). destruct (str_eqb (q_key e) k && str_eqb (q_val e) v); [left; congruence|right; auto].
Qed.
Lemma process_live ord enc gid pairs : (forall l, Permutation (ord l) l) -> forall c i c' i', live_code c -> (forall n, In n (n_toggl i) -> in_table (r_ring (k_lru c)) n) ->
  process_all ord enc gid c i pairs = Ok (c', i') -> live_code c' /\ (forall n, In n (n_toggl i') -> in_table (r_ring (k_lru c')) n).
Proof.
  intros Ho. induction pairs as [|[k v] pairs IH]; intros c i c' i' H Hi E; cbn [process_all] in E; [assert (c' = c /\ i' = i) as [-> ->] by (split; congruence); now split|].
  apply bind_ok in E as (w & _ & E). apply bind_ok in E as ([c1 i1] & E1 & E).
  assert (X : live_code c1 /\ (forall n, In n (n_toggl i1) -> in_table (r_ring (k_lru c1)) n)); [|exact (IH _ _ _ _ (proj1 X) (proj2 X) E)]. clear E IH.
  unfold process_kv in E1. apply bind_ok in E1 as (g & Eg & E1). pose proof (gs_at_in _ _ _ Eg) as Hg. apply bind_ok in E1 as (hit & Eh & E1).
  assert (T : forall n, In n (g_idxs g) -> live_code (mk_code (k_lru c) (gs_set (k_groups c) gid (g_touch g n)))).
  { intros n Hn. unfold live_code. cbn [k_groups k_lru]. apply gs_set_live; [exact H|]. intros j Hj. apply g_touch_idxs in Hj as [->|Hj]; [exact (H gid g n Hg Hn)|exact (H gid g j Hg Hj)]. }
  destruct hit as [n|].
  - match type of E1 with Ok (?x, ?y) = _ => assert (c1 = x /\ i1 = y) as [-> ->] by (split; congruence) end. split; [|exact Hi]. apply T. apply (Permutation_in _ (Ho (g_idxs g))), (has_kv_in _ _ _ _ _ Eh).
  - destruct (find_idx c k w) as [[a|] [b|]] eqn:Ef.
    + destruct (g_has g b) eqn:Eb; match type of E1 with Ok (?x, ?y) = _ => assert (c1 = x /\ i1 = y) as [-> ->] by (split; congruence) end.
      * split; [|exact Hi]. apply T. now apply g_has_in.
      * split; [exact H|]. cbn [n_toggl]. intros n Hn. apply in_app_iff in Hn as [Hn|[<-|[]]]; [auto|]. exact (find_idx_live _ _ _ _ _ Ef).
    + match type of E1 with Ok (?x, ?y) = _ => assert (c1 = x /\ i1 = y) as [-> ->] by (split; congruence) end. now split.
    + destruct (g_has g b) eqn:Eb; match type of E1 with Ok (?x, ?y) = _ => assert (c1 = x /\ i1 = y) as [-> ->] by (split; congruence) end.
      * split; [|exact Hi]. apply T. now apply g_has_in.
      * split; [exact H|]. cbn [n_toggl]. intros n Hn. apply in_app_iff in Hn as [Hn|[<-|[]]]; [auto|]. exact (find_idx_live _ _ _ _ _ Ef).
    + match type of E1 with Ok (?x, ?y) = _ => assert (c1 = x /\ i1 = y) as [-> ->] by (split; congruence) end. now split.
Qed.
Lemma sending_live c : sending c -> live_code c.
Proof.
  induction 1 as [|ord enc gid c headers c' i H IH Ho E]; [intros n g j []|]. unfold make_operations in E. destruct (gs_make (k_groups c) gid) as [gs g0] eqn:Em.
  destruct (gs_make_live _ _ _ _ _ IH Em) as [H0 _]. apply bind_ok in E as ([c1 i1] & E1 & E). apply bind_ok in E as (c2 & E2 & E).
  assert (X0 : live_code (mk_code (k_lru c) gs)) by exact H0.
  destruct (process_live ord enc gid _ Ho _ _ _ _ X0 (fun n (F : In n (n_toggl (mk_instrs [] [] []))) => match F with end) E1) as [H1 Hi].
  assert (H2 : live_code c2).
  { unfold exec_instrs in E2. apply bind_ok in E2 as (d1 & F1 & E2). apply bind_ok in E2 as (t & _ & E2). apply bind_ok in E2 as (d2 & F2 & E2).
    exact (stores_live _ _ _ _ (stores_live _ _ _ _ (toggles_live _ _ _ _ H1 Hi F1) F2) E2). }
  destruct (gs_make (k_groups c2) gid) as [gs2 g2] eqn:Em2. destruct (gs_make_live _ _ _ _ _ H2 Em2) as [H2' Hg2]. apply bind_ok in E as (c3 & E3 & E). apply bind_ok in E as (g3 & Eg3 & E). apply bind_ok in E as (c4 & E4 & E).
  assert (H3 : live_code c3).
  { refine (toggles_live gid (ord (g_old g2)) (mk_code (k_lru c2) gs2) c3 _ _ E3); [exact H2'|]. intros j Hj. cbn [k_lru]. apply Hg2, g_old_in, (Permutation_in _ (Ho (g_old g2))), Hj. }
  assert (H3' : live_code (mk_code (k_lru c3) (gs_set (k_groups c3) gid (g_next g3)))).
  { unfold live_code. cbn [k_groups k_lru]. apply gs_set_live; [exact H3|]. intros j Hj. rewrite g_next_idxs in Hj. exact (H3 gid g3 j (gs_at_in _ _ _ Eg3) Hj). }
  assert (c' = c4) as -> by congruence. clear - H3' E4. unfold adjust in E4. apply bind_ok in E4 as (g & _ & E). apply bind_ok in E as (es & _ & E). revert H3' E. generalize (mk_code (k_lru c3) (gs_set (k_groups c3) gid (g_next g3))).
  induction es as [|e es IH]; intros c H E; cbn [insert_each] in E; [now assert (c4 = c) as -> by congruence|].
  apply bind_ok in E as ([c1 n] & E1 & E). exact (IH _ (proj1 (insert_live _ _ _ _ _ H E1)) E).
Qed.

(** No group of a codec that sends names an entry that has gone. *)
Theorem C123_no_dangling : forall c gid g i, sending c -> gs_get (k_groups c) gid = Some g -> In i (g_idxs g) -> in_table (r_ring (k_lru c)) i.
Proof. intros c gid g i H Hg Hi. exact (sending_live c H gid g i (gs_get_in _ _ _ Hg) Hi). Qed.
Print Assumptions C123_no_dangling.

Definition none_empty (gs : groups) : Prop := forall n g, gs_get gs n = Some g -> g_store g <> [].
Lemma gs_drop_none_empty gs i : none_empty (gs_drop gs i).
Proof.
  intros n g E. apply gs_get_in in E. unfold gs_drop in E. apply filter_In in E. destruct E as [_ E]. cbn [snd] in E. now destruct (g_store g).
Qed.
Lemma pop_bytes_kept size ring : forall bytes gs ring' bytes' gs', none_empty gs -> pop_bytes size ring bytes gs = Ok (ring', bytes', gs') -> none_empty gs'.
Proof.
  induction ring as [|e r IH]; intros bytes gs ring' bytes' gs' H E; cbn [pop_bytes] in E; destruct (max_bytes <? _); try discriminate; try (assert (gs' = gs) by congruence; now subst).
  exact (IH _ _ _ _ _ (gs_drop_none_empty _ _) E).
Qed.
Lemma pop_items_kept ring : forall bytes gs ring' bytes' gs', none_empty gs -> pop_items ring bytes gs = Ok (ring', bytes', gs') -> none_empty gs'.
Proof.
  induction ring as [|e r IH]; intros bytes gs ring' bytes' gs' H E; cbn [pop_items] in E; destruct (max_items <? _); try discriminate; try (assert (gs' = gs) by congruence; now subst).
  exact (IH _ _ _ _ _ (gs_drop_none_empty _ _) E).
Qed.

(** Storing a pair for which an entry has to go leaves no group without entries. *)
Theorem C123_forgotten : forall c k v c' i n g, insert_val c k v = Ok (c', i) -> (length (r_ring (k_lru c')) <= length (r_ring (k_lru c)))%nat ->
  gs_get (k_groups c') n = Some g -> g_idxs g <> [].
Proof.
  intros c k v c' i n g E L Eg C. apply map_eq_nil in C. revert C. change (g_store g <> []). revert n g Eg. change (none_empty (k_groups c')).
  unfold insert_val in E. apply bind_ok in E as ([[r1 b1] g1] & E1 & E). apply bind_ok in E as ([[r2 b2] g2] & E2 & E). apply bind_ok in E as ([l m] & E3 & E).
  assert (c' = mk_code l g2) by congruence. subst c'. cbn [k_lru k_groups] in *. unfold store in E3. cbn [r_bytes r_ring r_next] in E3.
  destruct (max_bytes <? b2 + (slen v + slen k)); [discriminate|]. destruct (max_items <? Z.of_nat (length r2) + 1); [discriminate|].
  assert (Er : r_ring l = r2 ++ [mk_kv (r_next (k_lru c)) k v]) by (injection E3 as <- _; reflexivity). rewrite Er, app_length in L. cbn [length] in L. clear E3 E Er.
  destruct (r_ring (k_lru c)) as [|e r]; [cbn in L; lia|]. cbn [pop_items] in E1. destruct (max_items <? Z.of_nat (length (e :: r)) + 1).
  - apply (pop_bytes_kept _ _ _ _ _ _ _ (pop_items_kept _ _ _ _ _ _ (gs_drop_none_empty _ _) E1) E2).
  - assert (r1 = e :: r /\ b1 = r_bytes (k_lru c) /\ g1 = k_groups c) as (-> & -> & ->) by (repeat split; congruence). cbn [pop_bytes] in E2. destruct (max_bytes <? _) in E2.
    + apply (pop_bytes_kept _ _ _ _ _ _ _ (gs_drop_none_empty _ _) E2).
    + exfalso. assert (r2 = e :: r) by congruence. subst r2. cbn [length] in L. lia.
Qed.
Print Assumptions C123_forgotten.

(** Four messages in two groups with values of 3000 octets: each is stored and copied, the
    eight stores do not go into the table together, and entries have gone from both groups. *)
Definition long (c : N) : list (str * str) := [(lit "x-long", N.iter 3000 (cons c) [])].
Fixpoint send_all (c : code) (l : list (N * list (str * str))) : res code :=
  match l with [] => Ok c | (gid, h) :: r => let* (c, _) := make_operations (fun l => l) (fun _ v => Ok v) gid c h in send_all c r end.
Lemma send_all_sending l : forall c c', sending c -> send_all c l = Ok c' -> sending c'.
Proof.
  induction l as [|[gid h] l IH]; intros c c' H E; cbn [send_all] in E; [now assert (c' = c) as -> by congruence|]. apply bind_ok in E as ([c1 i] & E1 & E).
  refine (IH c1 c' _ E). eapply sending_make; [exact H| |exact E1]. reflexivity.
Qed.
Example C123_case : exists c, sending c /\ map q_seq (r_ring (k_lru c)) = [68; 69; 70; 71; 72] /\ r_bytes (k_lru c) = 15030 /\ r_next (k_lru c) = 73 /\
  map (fun x => (fst x, g_idxs (snd x))) (k_groups c) = [(2%N, [69]); (1%N, [71])].
Proof.
  destruct (send_all code_new [(1%N, long 97); (2%N, long 98); (2%N, long 99); (1%N, long 100)]) as [c|e] eqn:E; [|vm_compute in E; discriminate].
  exists c. split; [exact (send_all_sending _ _ _ sending_new E)|].
  assert (X : match send_all code_new [(1%N, long 97); (2%N, long 98); (2%N, long 99); (1%N, long 100)] with Ok c => (map q_seq (r_ring (k_lru c)), r_bytes (k_lru c), r_next (k_lru c), map (fun x => (fst x, g_idxs (snd x))) (k_groups c)) | Err _ => ([], 0, 0, []) end =
    ([68; 69; 70; 71; 72], 15030, 73, [(2%N, [69]); (1%N, [71])])) by (vm_compute; reflexivity).
  rewrite E in X. repeat split; congruence.
Qed.
