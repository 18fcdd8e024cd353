(** * Properties C113 and C114: delta2_bohe's table of entries and its store of
      identifiers. *)
From Coq Require Import String List NArith ZArith Bool Lia.
From Verif Require Import PyBase PyStr Small_Model Prop_Small LB_Model.
Import ListNotations.
Open Scope Z_scope.
Open Scope py_scope.

Definition blen {A} (l : list A) : Z := Z.of_nat (length l).

(** ** C113: the limits, and what Reserve does *)

(** The octets held. *)
Definition held (r : list bkv) : Z := fold_right (fun e n => bk_size e + n) 0 r.

Lemma bk_size_pos e : 0 <= bk_size e.
Proof. unfold bk_size. lia. Qed.
Lemma held_pos r : 0 <= held r.
Proof. induction r as [|e r IH]; cbn; [lia|]. pose proof (bk_size_pos e). unfold held in IH. lia. Qed.
Lemma held_app a b : held (a ++ b) = held a + held b.
Proof. induction a as [|e a IH]; [reflexivity|]. cbn [app]. change (held (e :: a ++ b)) with (bk_size e + held (a ++ b)). change (held (e :: a)) with (bk_size e + held a). lia. Qed.

(** A loop drops oldest entries for as long as its condition holds. *)
Lemma pop_while_ok cond fuel : forall l, (length (bl_ring l) <= fuel)%nat -> bl_bytes l = held (bl_ring l) ->
  exists k, (k <= length (bl_ring l))%nat /\
    let l' := mk_blru (skipn k (bl_ring l)) (held (skipn k (bl_ring l))) (bl_next l) in
    snd (b_pop_while cond fuel l) = l' /\
    (forall j, (j < k)%nat -> cond (mk_blru (skipn j (bl_ring l)) (held (skipn j (bl_ring l))) (bl_next l)) = true) /\
    ((fst (b_pop_while cond fuel l) = Ok tt /\ cond l' = false) \/
     (fst (b_pop_while cond fuel l) = Err IndexError /\ cond l' = true /\ k = length (bl_ring l))).
Proof.
  induction fuel as [|fuel IH]; intros [r b n] Hf Hb; cbn [bl_ring bl_bytes bl_next] in *.
  - destruct r; [|cbn in Hf; lia]. subst b. exists 0%nat. split; [cbn; lia|]. cbn [skipn]. cbn [b_pop_while b_pop bl_ring].
    destruct (cond (mk_blru [] (held []) n)) eqn:E; cbn [fst snd]; (split; [reflexivity|]); (split; [intros; lia|]); [right; auto|left; auto].
  - subst b. cbn [b_pop_while]. destruct (cond (mk_blru r (held r) n)) eqn:E.
    + destruct r as [|e r]; cbn [b_pop bl_ring bl_bytes bl_next].
      * exists 0%nat. split; [cbn; lia|]. cbn [skipn fst snd]. split; [reflexivity|]. split; [intros; lia|]. right. auto.
      * replace (held (e :: r) - bk_size e) with (held r) by (change (held (e :: r)) with (bk_size e + held r); lia).
        destruct (IH (mk_blru r (held r) n)) as (k & Hk & H1 & H2 & H3); [cbn in *; lia|reflexivity|]. cbn [bl_ring bl_next] in *.
        exists (S k). cbn [skipn length]. split; [lia|]. split; [exact H1|]. split.
        -- intros [|j] Hj; [exact E|]. apply H2. lia.
        -- destruct H3 as [H3|(H3 & H4 & H5)]; [left; exact H3|right]. split; [exact H3|]. split; [exact H4|lia].
    + exists 0%nat. split; [lia|]. cbn [skipn fst snd]. split; [reflexivity|]. split; [intros; lia|]. left. auto.
Qed.

(** There is room in ring [r] for [count] entries of [size] octets. *)
Definition room (c : blim) (r : list bkv) (size count : Z) : Prop :=
  (lim_items c = 0 \/ blen r + count <= lim_items c) /\ (lim_bytes c = 0 \/ held r + size <= lim_bytes c).

(** Everything a storage is, whatever was done with it. *)
Definition b_ok (c : blim) (l : blru) : Prop :=
  bl_bytes l = held (bl_ring l) /\ (lim_items c = 0 \/ blen (bl_ring l) <= lim_items c) /\
  (lim_bytes c = 0 \/ held (bl_ring l) <= lim_bytes c).

Lemma blen_skipn {A} (k : nat) (l : list A) : (k <= length l)%nat -> blen (skipn k l) = blen l - Z.of_nat k.
Proof. intros H. unfold blen. rewrite skipn_length. lia. Qed.
Lemma held_skipn k r : held (skipn k r) <= held r.
Proof.
  revert r. induction k as [|k IH]; intros [|e r]; cbn [skipn]; try lia. specialize (IH r). pose proof (bk_size_pos e).
  change (held (e :: r)) with (bk_size e + held r). lia.
Qed.

Lemma reserve_ok c l size count : bl_bytes l = held (bl_ring l) ->
  exists k, (k <= length (bl_ring l))%nat /\
    snd (b_reserve c l size count) = mk_blru (skipn k (bl_ring l)) (held (skipn k (bl_ring l))) (bl_next l) /\
    (forall j, (j < k)%nat -> ~ room c (skipn j (bl_ring l)) size count) /\
    ((fst (b_reserve c l size count) = Ok tt /\ room c (skipn k (bl_ring l)) size count) \/
     (fst (b_reserve c l size count) = Err IndexError /\ k = length (bl_ring l) /\ ~ room c [] size count)).
Proof.
  intros Hb. unfold b_reserve.
  set (C1 := fun l0 : blru => lim_items c <? Z.of_nat (length (bl_ring l0)) + count).
  set (C2 := fun l0 : blru => lim_bytes c <? bl_bytes l0 + size).
  assert (HA : exists k, (k <= length (bl_ring l))%nat /\
    let l' := mk_blru (skipn k (bl_ring l)) (held (skipn k (bl_ring l))) (bl_next l) in
    snd (if lim_items c =? 0 then (Ok tt, l) else b_pop_while C1 (length (bl_ring l)) l) = l' /\
    (forall j, (j < k)%nat -> ~ room c (skipn j (bl_ring l)) size count) /\
    ((fst (if lim_items c =? 0 then (Ok tt, l) else b_pop_while C1 (length (bl_ring l)) l) = Ok tt /\
        (lim_items c = 0 \/ blen (skipn k (bl_ring l)) + count <= lim_items c)) \/
     (fst (if lim_items c =? 0 then (Ok tt, l) else b_pop_while C1 (length (bl_ring l)) l) = Err IndexError /\
        lim_items c <> 0 /\ lim_items c < count /\ k = length (bl_ring l)))).
  { destruct (Z.eqb_spec (lim_items c) 0) as [E0|E0].
    - exists 0%nat. split; [lia|]. cbn [skipn fst snd]. split; [rewrite <- Hb; now destruct l|]. split; [intros; lia|]. left. auto.
    - destruct (pop_while_ok C1 (length (bl_ring l)) l (le_n _) Hb) as (k & Hk & H1 & H2 & H3). exists k. split; [exact Hk|].
      cbv zeta in *. split; [exact H1|]. split.
      + intros j Hj [HR _]. specialize (H2 j Hj). unfold C1 in H2. cbn [bl_ring] in H2. apply Z.ltb_lt in H2. unfold blen in HR. lia.
      + destruct H3 as [(H3 & H4)|(H3 & H4 & H5)].
        * left. split; [exact H3|]. right. unfold C1 in H4. cbn [bl_ring] in H4. apply Z.ltb_ge in H4. exact H4.
        * right. split; [exact H3|]. split; [exact E0|]. split; [|exact H5]. unfold C1 in H4. cbn [bl_ring] in H4. apply Z.ltb_lt in H4.
          rewrite H5, skipn_all in H4. cbn in H4. lia. }
  destruct HA as (k & Hk & H1 & H2 & H3). destruct (if lim_items c =? 0 then (Ok tt, l) else b_pop_while C1 (length (bl_ring l)) l) as [r1 l1].
  cbn [fst snd] in *. cbv zeta in H1.
  destruct H3 as [(-> & H4)|(-> & H4 & H5 & H6)].
  2:{ cbn [fst snd]. exists k. split; [exact Hk|]. split; [exact H1|]. split; [exact H2|]. right. split; [reflexivity|]. split; [exact H6|].
      intros [HR _]. unfold blen in HR. cbn in HR. lia. }
  destruct (Z.eqb_spec (lim_bytes c) 0) as [Ey|Ey].
  { cbn [fst snd]. exists k. split; [exact Hk|]. split; [exact H1|]. split; [exact H2|]. left. split; [reflexivity|]. split; [exact H4|now left]. }
  subst l1. cbn [bl_ring].
  destruct (pop_while_ok C2 (length (skipn k (bl_ring l))) (mk_blru (skipn k (bl_ring l)) (held (skipn k (bl_ring l))) (bl_next l)) (le_n _) eq_refl)
    as (m & Hm & P1 & P2 & P3). cbn [bl_ring bl_next] in *. cbv zeta in *.
  assert (Esk : forall j, skipn j (skipn k (bl_ring l)) = skipn (k + j) (bl_ring l)).
  { intros j. clear. revert k. induction (bl_ring l) as [|e r IH]; intros [|k]; cbn [skipn Nat.add]; try reflexivity; [now destruct j|apply IH]. }
  rewrite skipn_length in Hm. exists (k + m)%nat. split; [lia|]. rewrite Esk in P1. split; [exact P1|]. split.
  - intros j Hj. destruct (Nat.lt_ge_cases j k) as [Hjk|Hjk]; [now apply H2|]. specialize (P2 (j - k)%nat ltac:(lia)). rewrite Esk in P2.
    replace (k + (j - k))%nat with j in P2 by lia. unfold C2 in P2. cbn [bl_bytes] in P2. apply Z.ltb_lt in P2. intros [_ HR]. lia.
  - destruct P3 as [(P3 & P4)|(P3 & P4 & P5)]; rewrite Esk in P4; unfold C2 in P4; cbn [bl_bytes] in P4.
    + left. split; [exact P3|]. apply Z.ltb_ge in P4. split; [|now right]. destruct H4 as [H4|H4]; [now left|right].
      rewrite blen_skipn by lia. rewrite blen_skipn in H4 by lia. lia.
    + right. split; [exact P3|]. rewrite skipn_length in P5. split; [lia|]. apply Z.ltb_lt in P4. rewrite skipn_all2 in P4 by lia.
      intros [_ HR]. cbn in P4, HR. lia.
Qed.

Lemma b_step_ok c l o : 0 <= lim_items c -> 0 <= lim_bytes c -> b_ok c l -> b_ok c (b_step c l o).
Proof.
  intros HI HB (Hb & Hi & Hy). destruct o as [size count|k v|]; cbn [b_step].
  - destruct (reserve_ok c l size count Hb) as (k & Hk & E & _). rewrite E. unfold b_ok. cbn [bl_ring bl_bytes]. split; [reflexivity|]. split.
    + destruct Hi as [Hi|Hi]; [now left|right]. rewrite blen_skipn by exact Hk. lia.
    + destruct Hy as [Hy|Hy]; [now left|right]. pose proof (held_skipn k (bl_ring l)). lia.
  - unfold b_store. destruct (negb (lim_bytes c =? 0) && _) eqn:E1; [now repeat split|].
    destruct (negb (lim_items c =? 0) && _) eqn:E2; [now repeat split|]. unfold b_ok. cbn [bl_ring bl_bytes].
    rewrite held_app. unfold blen in *. rewrite app_length. cbn [length held fold_right]. split; [rewrite Hb; lia|].
    apply andb_false_iff in E1, E2. rewrite negb_false_iff, Z.eqb_eq, Z.ltb_ge in E1, E2. split.
    + destruct E2 as [E2|E2]; [now left|right; lia].
    + destruct E1 as [E1|E1]; [now left|right]. rewrite Hb in E1. lia.
  - unfold b_pop. destruct (bl_ring l) as [|e r] eqn:Er; [repeat split; rewrite ?Er; assumption|]. unfold b_ok. cbn [bl_ring bl_bytes].
    rewrite Hb. change (held (e :: r)) with (bk_size e + held r) in *. pose proof (bk_size_pos e). unfold blen in *. cbn [length] in *.
    split; [lia|]. split; [destruct Hi as [Hi|Hi]; [now left|right; lia]|destruct Hy as [Hy|Hy]; [now left|right; lia]].
Qed.

(** Whatever is done with a storage, it accounts exactly for the octets of keys
    and values it holds, and stays within its limits. *)
Theorem C113_limits : forall c ops, 0 <= lim_items c -> 0 <= lim_bytes c ->
  let l := b_run c (blru_new c) ops in
  bl_bytes l = held (bl_ring l) /\ (lim_items c = 0 \/ blen (bl_ring l) <= lim_items c) /\
  (lim_bytes c = 0 \/ held (bl_ring l) <= lim_bytes c).
Proof.
  intros c ops HI HB. cbv zeta. unfold b_run. assert (H0 : b_ok c (blru_new c)) by (repeat split; right; cbn; lia). revert H0.
  generalize (blru_new c). induction ops as [|o ops IH]; intros l H; [exact H|]. cbn [fold_left]. apply IH. now apply b_step_ok.
Qed.
Print Assumptions C113_limits.

(** Reserve drops the fewest oldest entries that make the room asked for; only
    when an empty storage has not that room does it raise, having dropped all. *)
Theorem C113_reserve : forall c ops size count, 0 <= lim_items c -> 0 <= lim_bytes c ->
  let l := b_run c (blru_new c) ops in
  exists k, (k <= length (bl_ring l))%nat /\
    bl_ring (snd (b_reserve c l size count)) = skipn k (bl_ring l) /\
    (forall j, (j < k)%nat -> ~ room c (skipn j (bl_ring l)) size count) /\
    ((fst (b_reserve c l size count) = Ok tt /\ room c (skipn k (bl_ring l)) size count) \/
     (fst (b_reserve c l size count) = Err IndexError /\ skipn k (bl_ring l) = [] /\ ~ room c [] size count)).
Proof.
  intros c ops size count HI HB l. destruct (C113_limits c ops HI HB) as (Hb & _). fold l in Hb.
  destruct (reserve_ok c l size count Hb) as (k & Hk & E & H1 & H2). exists k. split; [exact Hk|]. rewrite E. split; [reflexivity|]. split; [exact H1|].
  destruct H2 as [H2|(H2 & H3 & H4)]; [left; exact H2|right]. split; [exact H2|]. split; [|exact H4]. rewrite H3. apply skipn_all.
Qed.
Print Assumptions C113_reserve.

(** Store takes an entry exactly when there is room for it. *)
Theorem C113_store : forall c ops k v, 0 <= lim_items c -> 0 <= lim_bytes c ->
  let l := b_run c (blru_new c) ops in
  let size := Z.of_nat (length v) + Z.of_nat (length k) in
  (room c (bl_ring l) size 1 -> exists l', b_store c l k v = Ok l' /\ bl_ring l' = bl_ring l ++ [mk_bkv k v (bl_next l)]) /\
  (~ room c (bl_ring l) size 1 -> b_store c l k v = Err MemoryError).
Proof.
  intros c ops k v HI HB l size. destruct (C113_limits c ops HI HB) as (Hb & _). fold l in Hb. unfold b_store.
  change (bk_size (mk_bkv k v (bl_next l))) with size. rewrite Hb. split.
  - intros [H1 H2]. replace (negb (lim_bytes c =? 0) && (lim_bytes c <? held (bl_ring l) + size)) with false.
    2:{ symmetry. apply andb_false_iff. rewrite negb_false_iff, Z.eqb_eq, Z.ltb_ge. exact H2. }
    replace (negb (lim_items c =? 0) && (lim_items c <? Z.of_nat (length (bl_ring l)) + 1)) with false.
    2:{ symmetry. apply andb_false_iff. rewrite negb_false_iff, Z.eqb_eq, Z.ltb_ge. exact H1. }
    eexists. split; reflexivity.
  - intros HR. destruct (negb (lim_bytes c =? 0) && _) eqn:E1; [reflexivity|]. destruct (negb (lim_items c =? 0) && _) eqn:E2; [reflexivity|].
    exfalso. apply HR. apply andb_false_iff in E1, E2. rewrite negb_false_iff, Z.eqb_eq, Z.ltb_ge in E1, E2. split; assumption.
Qed.
Print Assumptions C113_store.

(** ** The numbers *)

(** The number of the [j]-th entry ever stored: counting from the offset, and
    again from there after the last number, which is in use too. *)
Definition num (c : blim) (j : nat) : Z :=
  if lim_seq c =? 0 then lim_off c + Z.of_nat j
  else lim_off c + Z.of_nat j mod (lim_seq c - lim_off c + 1).

Definition spans (c : blim) : Prop := 0 <= lim_off c /\ (lim_seq c = 0 \/ lim_off c <= lim_seq c).

Lemma num_step c j : spans c ->
  (let n := num c j + 1 in if negb (lim_seq c =? 0) && (lim_seq c <? n) then lim_off c else n) = num c (S j).
Proof.
  intros (Ho & Hs). cbv zeta. unfold num. destruct (Z.eqb_spec (lim_seq c) 0) as [E|E]; cbn [negb andb]; [lia|].
  destruct Hs as [Hs|Hs]; [lia|]. set (K := lim_seq c - lim_off c + 1). assert (HK : 0 < K) by lia.
  pose proof (Z.mod_pos_bound (Z.of_nat j) K HK) as Hm. pose proof (Z.div_mod (Z.of_nat j) K ltac:(lia)) as Hd.
  destruct (Z.ltb_spec (lim_seq c) (lim_off c + Z.of_nat j mod K + 1)).
  - replace (Z.of_nat (S j) mod K) with 0; [lia|]. apply Z.mod_unique_pos with (q := Z.of_nat j / K + 1); nia.
  - replace (Z.of_nat (S j) mod K) with (Z.of_nat j mod K + 1); [lia|]. apply Z.mod_unique_pos with (q := Z.of_nat j / K); nia.
Qed.

(** [p] entries have gone, of at most [n] stored. *)
Definition numbered (c : blim) (l : blru) (p n : nat) : Prop :=
  (p + length (bl_ring l) <= n)%nat /\ map bk_seq (bl_ring l) = map (num c) (seq p (length (bl_ring l))) /\
  bl_next l = num c (p + length (bl_ring l)).

Lemma seq_skipn k : forall p n, (k <= n)%nat -> skipn k (seq p n) = seq (p + k) (n - k).
Proof.
  induction k as [|k IH]; intros p n H; [cbn [skipn]; now rewrite Nat.add_0_r, Nat.sub_0_r|]. destruct n as [|n]; [lia|].
  cbn [seq skipn Nat.sub]. rewrite IH by lia. now replace (S p + k)%nat with (p + S k)%nat by lia.
Qed.
Lemma skipn_map_ {A B} (f : A -> B) k : forall l, skipn k (map f l) = map f (skipn k l).
Proof. induction k as [|k IH]; intros [|x l]; cbn; auto. Qed.

Lemma numbered_skip c l p n k b : (k <= length (bl_ring l))%nat -> numbered c l p n ->
  numbered c (mk_blru (skipn k (bl_ring l)) b (bl_next l)) (p + k) n.
Proof.
  intros Hk (H1 & H2 & H3). unfold numbered. cbn [bl_ring bl_next]. rewrite skipn_length.
  replace (p + k + (length (bl_ring l) - k))%nat with (p + length (bl_ring l))%nat by lia. split; [exact H1|]. split; [|exact H3].
  rewrite <- skipn_map_, H2, skipn_map_, seq_skipn by exact Hk. reflexivity.
Qed.

Definition is_store (o : bop) : bool := match o with BStore _ _ => true | _ => false end.
Definition stores (ops : list bop) : nat := length (filter is_store ops).

Lemma numbered_run c : spans c -> forall ops l p n, bl_bytes l = held (bl_ring l) -> numbered c l p n ->
  exists p', numbered c (b_run c l ops) p' (n + stores ops).
Proof.
  intros Hs. induction ops as [|o ops IH]; intros l p n Hb H.
  { exists p. unfold stores. cbn. now rewrite Nat.add_0_r. }
  unfold b_run. cbn [fold_left]. change (fold_left (b_step c) ops (b_step c l o)) with (b_run c (b_step c l o) ops).
  unfold stores. cbn [filter]. destruct o as [size count|k v|]; cbn [is_store b_step].
  - destruct (reserve_ok c l size count Hb) as (k & Hk & E & _). rewrite E. apply (IH _ (p + k)%nat); [reflexivity|]. now apply numbered_skip.
  - cbn [length]. replace (n + S (length (filter is_store ops)))%nat with (S n + stores ops)%nat by (unfold stores; lia).
    unfold b_store. destruct (negb (lim_bytes c =? 0) && _).
    { apply (IH _ p); [exact Hb|]. destruct H as (H1 & H2 & H3). split; [lia|]. split; assumption. }
    destruct (negb (lim_items c =? 0) && _).
    { apply (IH _ p); [exact Hb|]. destruct H as (H1 & H2 & H3). split; [lia|]. split; assumption. }
    apply (IH _ p).
    + cbn [bl_bytes bl_ring]. rewrite held_app, Hb. cbn [held fold_right]. lia.
    + destruct H as (H1 & H2 & H3). unfold numbered. cbn [bl_ring bl_next]. rewrite app_length. cbn [length]. split; [lia|]. split.
      * rewrite map_app, H2, seq_app, map_app. cbn [map bk_seq seq]. now rewrite H3.
      * replace (p + (length (bl_ring l) + 1))%nat with (S (p + length (bl_ring l))) by lia. rewrite H3. apply num_step. exact Hs.
  - unfold b_pop. destruct (bl_ring l) as [|e r] eqn:Er; [apply (IH _ p); [now rewrite Er|exact H]|].
    apply (IH _ (p + 1)%nat).
    + cbn [bl_bytes bl_ring]. rewrite Hb. change (held (e :: r)) with (bk_size e + held r). lia.
    + replace r with (skipn 1 (bl_ring l)) by now rewrite Er. apply numbered_skip; [rewrite Er; cbn; lia|exact H].
Qed.

Lemma numbered_new c ops : spans c -> exists p, numbered c (b_run c (blru_new c) ops) p (stores ops).
Proof.
  intros Hs. apply (numbered_run c Hs ops (blru_new c) 0 0); [reflexivity|]. split; [cbn; lia|]. split; [reflexivity|]. cbn [bl_next blru_new bl_ring length].
  unfold num. cbn [Nat.add]. change (Z.of_nat 0) with 0. destruct (Z.eqb_spec (lim_seq c) 0); [lia|].
  destruct Hs as (_ & [Hs|Hs]); [lia|]. rewrite Z.mod_0_l by lia. lia.
Qed.

Lemma numbered_nth c l p n i e : numbered c l p n -> nth_error (bl_ring l) i = Some e -> bk_seq e = num c (p + i).
Proof.
  intros (_ & H & _) E. assert (Hi : (i < length (bl_ring l))%nat) by (apply nth_error_Some; congruence).
  assert (E2 : nth_error (map bk_seq (bl_ring l)) i = Some (bk_seq e)) by now apply map_nth_error.
  rewrite H in E2. rewrite (map_nth_error (num c) i (seq p (length (bl_ring l))) (d := (p + i)%nat)) in E2; [congruence|].
  rewrite nth_error_nth' with (d := 0%nat) by (rewrite seq_length; exact Hi). now rewrite seq_nth.
Qed.

Lemma b_at_nth r (i : nat) : b_at r (Z.of_nat i) = match nth_error r i with Some x => Ok x | None => Err IndexError end.
Proof.
  unfold b_at. replace (Z.of_nat i <? 0) with false by (symmetry; apply Z.ltb_ge; lia). cbv zeta.
  replace (Z.of_nat i <? 0) with false by (symmetry; apply Z.ltb_ge; lia). now rewrite Nat2Z.id.
Qed.

(** ** Looking an entry up by its number: right for an entry whose number is not
    below the first one's; for one whose number is, because the numbers have
    started over, what comes is the entry [lim_off - 1] places after it. *)
Theorem C113_lookup : forall c ops i e f, spans c ->
  let l := b_run c (blru_new c) ops in
  lim_seq c = 0 \/ blen (bl_ring l) <= lim_seq c - lim_off c + 1 ->
  nth_error (bl_ring l) 0 = Some f -> nth_error (bl_ring l) i = Some e ->
  b_lookup c l (bk_seq e) =
    if bk_seq f <=? bk_seq e then Ok e
    else match nth_error (bl_ring l) (i + Z.to_nat (lim_off c) - 1) with Some x => Ok x | None => Err IndexError end.
Proof.
  intros c ops i e f Hs l Hlen Ef Ee. destruct (numbered_new c ops Hs) as (p & H). fold l in H.
  pose proof (numbered_nth c l p _ 0%nat f H Ef) as Nf. pose proof (numbered_nth c l p _ i e H Ee) as Ne. rewrite Nat.add_0_r in Nf.
  assert (Hi : (i < length (bl_ring l))%nat) by (apply nth_error_Some; congruence).
  unfold b_lookup. change 0 with (Z.of_nat 0) at 1. rewrite b_at_nth, Ef. cbn [bind].
  destruct Hs as (Ho & Hs). rewrite Nf, Ne. unfold num.
  destruct (Z.eqb_spec (lim_seq c) 0) as [E0|E0].
  - replace (lim_off c + Z.of_nat (p + i) <? lim_off c) with false by (symmetry; apply Z.ltb_ge; lia).
    replace (lim_off c + Z.of_nat (p + i) <? lim_off c + Z.of_nat p) with false by (symmetry; apply Z.ltb_ge; lia). cbn [bind].
    replace (lim_off c + Z.of_nat p <=? lim_off c + Z.of_nat (p + i)) with true by (symmetry; apply Z.leb_le; lia).
    replace (lim_off c + Z.of_nat (p + i) - (lim_off c + Z.of_nat p)) with (Z.of_nat i) by lia. rewrite b_at_nth, Ee. reflexivity.
  - destruct Hs as [Hs|Hs]; [lia|]. destruct Hlen as [Hlen|Hlen]; [lia|]. unfold blen in Hlen. set (K := lim_seq c - lim_off c + 1) in *.
    assert (HK : 0 < K) by lia. pose proof (Z.mod_pos_bound (Z.of_nat p) K HK) as Hm. pose proof (Z.div_mod (Z.of_nat p) K ltac:(lia)) as Hd.
    set (b := Z.of_nat p mod K) in *.
    assert (Hc : (b + Z.of_nat i < K /\ Z.of_nat (p + i) mod K = b + Z.of_nat i) \/ (K <= b + Z.of_nat i /\ Z.of_nat (p + i) mod K = b + Z.of_nat i - K)).
    { destruct (Z.lt_ge_cases (b + Z.of_nat i) K); [left|right]; (split; [lia|]); symmetry.
      - apply Z.mod_unique_pos with (q := Z.of_nat p / K); lia.
      - apply Z.mod_unique_pos with (q := Z.of_nat p / K + 1); lia. }
    destruct Hc as [(Hc & ->)|(Hc & ->)].
    + replace (lim_off c + (b + Z.of_nat i) <? lim_off c) with false by (symmetry; apply Z.ltb_ge; lia).
      replace (lim_off c + (b + Z.of_nat i) <? lim_off c + b) with false by (symmetry; apply Z.ltb_ge; lia). cbn [bind].
      replace (lim_off c + b <=? lim_off c + (b + Z.of_nat i)) with true by (symmetry; apply Z.leb_le; lia).
      replace (lim_off c + (b + Z.of_nat i) - (lim_off c + b)) with (Z.of_nat i) by lia. rewrite b_at_nth, Ee. reflexivity.
    + replace (lim_off c + (b + Z.of_nat i - K) <? lim_off c) with false by (symmetry; apply Z.ltb_ge; lia).
      replace (lim_off c + (b + Z.of_nat i - K) <? lim_off c + b) with true by (symmetry; apply Z.ltb_lt; lia). cbn [bind].
      replace (lim_off c + b <=? lim_off c + (b + Z.of_nat i - K)) with false by (symmetry; apply Z.leb_gt; lia).
      replace (lim_seq c - (lim_off c + b) + (lim_off c + (b + Z.of_nat i - K))) with (Z.of_nat (i + Z.to_nat (lim_off c) - 1)) by lia.
      apply b_at_nth.
Qed.
Print Assumptions C113_lookup.

(** In particular every entry is found by its number as long as no more have been
    stored than there are numbers. *)
Theorem C113_lookup_early : forall c ops i e, spans c ->
  lim_seq c = 0 \/ Z.of_nat (stores ops) <= lim_seq c - lim_off c + 1 ->
  let l := b_run c (blru_new c) ops in
  nth_error (bl_ring l) i = Some e -> b_lookup c l (bk_seq e) = Ok e.
Proof.
  intros c ops i e Hs Hn l Ee. destruct (numbered_new c ops Hs) as (p & H). fold l in H. pose proof H as (HL & _).
  destruct (nth_error (bl_ring l) 0) as [f|] eqn:Ef.
  2:{ exfalso. destruct (bl_ring l) as [|y r]; [destruct i; discriminate|discriminate]. }
  assert (Hi : (i < length (bl_ring l))%nat) by (apply nth_error_Some; congruence).
  pose proof (C113_lookup c ops i e f Hs) as HQ. cbv zeta in HQ. fold l in HQ.
  rewrite HQ by first [assumption|unfold blen; destruct Hn as [Hn|Hn]; [now left|right; lia]].
  pose proof (numbered_nth c l p _ 0%nat f H Ef) as Nf. pose proof (numbered_nth c l p _ i e H Ee) as Ne. rewrite Nat.add_0_r in Nf.
  replace (bk_seq f <=? bk_seq e) with true; [reflexivity|]. symmetry. apply Z.leb_le. rewrite Nf, Ne. unfold num.
  destruct (Z.eqb_spec (lim_seq c) 0); [lia|]. destruct Hn as [Hn|Hn]; [lia|]. rewrite !Z.mod_small by lia. lia.
Qed.
Print Assumptions C113_lookup_early.

(** And always, if the numbers start at one. *)
Theorem C113_lookup_from_one : forall c ops i e, lim_off c = 1 -> 0 < lim_items c <= lim_seq c -> 0 <= lim_bytes c ->
  let l := b_run c (blru_new c) ops in
  nth_error (bl_ring l) i = Some e -> b_lookup c l (bk_seq e) = Ok e.
Proof.
  intros c ops i e Ho Hi Hb l Ee. destruct (nth_error (bl_ring l) 0) as [f|] eqn:Ef.
  2:{ exfalso. destruct (bl_ring l) as [|y r]; [destruct i; discriminate|discriminate]. }
  pose proof (C113_lookup c ops i e f) as HQ. cbv zeta in HQ. fold l in HQ. rewrite HQ; try assumption.
  - destruct (bk_seq f <=? bk_seq e); [reflexivity|]. rewrite Ho. change (Z.to_nat 1) with 1%nat.
    replace (i + 1 - 1)%nat with i by lia. now rewrite Ee.
  - split; [lia|right; lia].
  - right. destruct (C113_limits c ops ltac:(lia) Hb) as (_ & [HH|HH] & _); [lia|]. fold l in HH. lia.
Qed.
Print Assumptions C113_lookup_from_one.

(** With any other offset some history makes a stored entry unreachable by its
    number: lines 62 and 75 do not agree on how many numbers there are. *)
Definition round (k v : str) : list bop := [BReserve 2 1; BStore k v].
Fixpoint rounds (n : nat) (k v : str) : list bop := match n with O => [] | S n => rounds n k v ++ round k v end.

Lemma b_run_app c l a b : b_run c l (a ++ b) = b_run c (b_run c l a) b.
Proof. apply fold_left_app. Qed.

Lemma rounds_state c k v n : spans c -> lim_items c = 2 -> lim_bytes c = 0 ->
  exists b, b_run c (blru_new c) (rounds (S (S n)) k v) = mk_blru [mk_bkv k v (num c n); mk_bkv k v (num c (S n))] b (num c (S (S n))).
Proof.
  intros Hs Hi Hb.
  assert (H0 : num c 0 = lim_off c).
  { unfold num. destruct (Z.eqb_spec (lim_seq c) 0); [cbn; lia|]. destruct Hs as (_ & [Hs|Hs]); [lia|]. change (Z.of_nat 0) with 0. rewrite Z.mod_0_l by lia. lia. }
  assert (St : forall l, (length (bl_ring l) <= 1)%nat -> forall j, bl_next l = num c j ->
     b_run c l (round k v) = mk_blru (bl_ring l ++ [mk_bkv k v (num c j)]) (bl_bytes l + bk_size (mk_bkv k v (num c j))) (num c (S j))).
  { intros [r y nx] Hl j Hj. cbn [bl_ring bl_bytes bl_next] in *. unfold round, b_run. cbn [fold_left b_step].
    assert (ER : b_reserve c (mk_blru r y nx) 2 1 = (Ok tt, mk_blru r y nx)).
    { unfold b_reserve. rewrite Hi, Hb. change (2 =? 0) with false. change (0 =? 0) with true. cbv iota. cbn [bl_ring].
      destruct r as [|x [|x' r]]; [reflexivity|reflexivity|cbn in Hl; lia]. }
    rewrite ER. cbn [snd]. unfold b_store. rewrite Hi, Hb. change (0 =? 0) with true. change (2 =? 0) with false. cbn [negb andb bl_ring bl_bytes bl_next].
    replace (2 <? Z.of_nat (length r) + 1) with false by (symmetry; apply Z.ltb_ge; lia). rewrite Hj. f_equal. apply num_step. exact Hs. }
  induction n as [|n IH].
  - cbn [rounds]. rewrite app_nil_l, b_run_app. rewrite (St (blru_new c) ltac:(cbn; lia) 0%nat) by (cbn [bl_next blru_new]; auto).
    match goal with |- exists b, b_run c ?l _ = _ => rewrite (St l ltac:(cbn; lia) 1%nat eq_refl) end. cbn [bl_ring app blru_new]. eexists. reflexivity.
  - destruct IH as (b & IH). cbn [rounds] in *. rewrite b_run_app, IH. unfold round, b_run. cbn [fold_left b_step].
    assert (ER : snd (b_reserve c (mk_blru [mk_bkv k v (num c n); mk_bkv k v (num c (S n))] b (num c (S (S n)))) 2 1) =
       mk_blru [mk_bkv k v (num c (S n))] (b - bk_size (mk_bkv k v (num c n))) (num c (S (S n)))).
    { unfold b_reserve. rewrite Hi, Hb. reflexivity. }
    rewrite ER. unfold b_store. rewrite Hi, Hb. change (0 =? 0) with true. change (2 =? 0) with false. cbn [negb andb bl_ring bl_bytes bl_next].
    change (2 <? Z.of_nat (length [mk_bkv k v (num c (S n))]) + 1) with false. cbn [app].
    eexists. f_equal. apply num_step. exact Hs.
Qed.

Theorem C113_lookup_refuted : forall off last, 0 <= off < last -> off <> 1 ->
  exists c ops i e, lim_off c = off /\ lim_seq c = last /\ lim_items c = 2 /\
    nth_error (bl_ring (b_run c (blru_new c) ops)) i = Some e /\ b_lookup c (b_run c (blru_new c) ops) (bk_seq e) <> Ok e.
Proof.
  intros off last H1 H2. set (c := mk_blim 0 2 last off). set (n := Z.to_nat (last - off)).
  destruct (rounds_state c (lit "k") (lit "v") n) as (b & E); [split; [cbn; lia|right; cbn; lia]|reflexivity|reflexivity|].
  exists c, (rounds (S (S n)) (lit "k") (lit "v")), 1%nat, (mk_bkv (lit "k") (lit "v") (num c (S n))). rewrite E.
  split; [reflexivity|]. split; [reflexivity|]. split; [reflexivity|]. split; [reflexivity|].
  assert (En : num c n = last).
  { unfold num. cbn [lim_seq lim_off c]. replace (last =? 0) with false by (symmetry; apply Z.eqb_neq; lia). rewrite Z.mod_small; unfold n; lia. }
  assert (En1 : num c (S n) = off).
  { unfold num. cbn [lim_seq lim_off c]. replace (last =? 0) with false by (symmetry; apply Z.eqb_neq; lia).
    replace (Z.of_nat (S n)) with (last - off + 1) by (unfold n; lia). rewrite Z_mod_same_full. lia. }
  rewrite En, En1. unfold b_lookup. cbn [bl_ring bk_seq lim_off lim_seq c].
  change (b_at [mk_bkv (lit "k") (lit "v") last; mk_bkv (lit "k") (lit "v") off] 0) with (Ok (mk_bkv (lit "k") (lit "v") last)). cbn [bind bk_seq].
  rewrite Z.ltb_irrefl. replace (off <? last) with true by (symmetry; apply Z.ltb_lt; lia).
  replace (last =? 0) with false by (symmetry; apply Z.eqb_neq; lia). cbn [bind]. replace (last - last + off) with off by lia.
  destruct (Z.eq_dec off 0) as [->|Hne].
  - cbn. intros C. assert (C2 : last = 0) by congruence. lia.
  - unfold b_at. replace (off <? 0) with false by (symmetry; apply Z.ltb_ge; lia). cbv zeta. replace (off <? 0) with false by (symmetry; apply Z.ltb_ge; lia).
    replace (nth_error _ (Z.to_nat off)) with (@None bkv); [discriminate|]. symmetry. apply nth_error_None. cbn. lia.
Qed.
Print Assumptions C113_lookup_refuted.

(** ** compressor/delta2_bohe/lrustorage_test.py on the model *)

Definition three (i : nat) : str := map N.of_nat [48 + i / 100 mod 10; 48 + i / 10 mod 10; 48 + i mod 10]%nat.
Definition key_of (i : nat) : str := lit "key_" ++ three i.
Definition val_of (i : nat) : str := lit "val_" ++ three i.
Definition store_of (i : nat) : bop := BStore (key_of i) (val_of i).
Definition is_entry (r : res bkv) (k v : str) (n : Z) : bool :=
  match r with Ok e => str_eqb (bk_key e) k && str_eqb (bk_val e) v && (bk_seq e =? n) | Err _ => false end.

(** Lines 6-22 and 24-61: ten entries in a storage for ten of them; one more is refused. *)
Example C113_case_basic :
  let c := mk_blim 140 10 0 0 in
  let l := b_run c (blru_new c) (map store_of (seq 0 10)) in
  blen (bl_ring l) = 10 /\ bl_bytes l = 140 /\
  forallb (fun i => is_entry (b_lookup c l (Z.of_nat i)) (key_of i) (val_of i) (Z.of_nat i)) (seq 0 10) = true /\
  b_store c l (key_of 10) (val_of 10) = Err MemoryError.
Proof. vm_compute. repeat split; reflexivity. Qed.

(** Lines 126-159: room for eleven octets among twenty, two times ten being held. *)
Example C113_case_reserve :
  let c := mk_blim 20 10 0 0 in
  let l := b_run c (blru_new c) [BStore (lit "12345") (lit "67890"); BStore (lit "12345") (lit "67890")] in
  b_store c l (lit "12345") (lit "678901") = Err MemoryError /\
  map bk_val (bl_ring (b_run c l [BReserve 11 1; BStore (lit "12345") (lit "678901")])) = [lit "678901"] /\
  b_reserve c l 21 1 = (Err IndexError, mk_blru [] 0 2).
Proof. vm_compute. repeat split; reflexivity. Qed.

(** Lines 162-177, TestRollOver: its comparison (line 176, which nothing looks at)
    would hold, the storage counting to 64 and the lookup modulo 64; but the entry
    that comes has another number than the one asked for. *)
Example C113_case_roll_over :
  let c := mk_blim 1280 64 64 0 in
  let l := b_run c (blru_new c) (flat_map (fun i => [BReserve 14 1; store_of i]) (seq 0 96)) in
  forallb (fun i => match b_lookup c l (Z.of_nat (i mod 64)) with Ok e => str_eqb (bk_key e) (key_of i) | Err _ => false end) (seq 32 64) = true /\
  is_entry (b_lookup c l 0) (key_of 64) (val_of 64) 64 = true /\
  nth_error (bl_ring l) 33 = Some (mk_bkv (key_of 65) (val_of 65) 0).
Proof. vm_compute. repeat split; reflexivity. Qed.

(** ** C114: identifiers *)

(** A store with maximum [m] after some requests and returns; [used] are the
    identifiers handed out and not given back. *)
Inductive bids_reach (m : N) : idstore -> list N -> Prop :=
| br_new : bids_reach m (ids_new m) []
| br_get pick s used x s' : bids_reach m s used -> bids_get pick s = (Ok x, s') -> bids_reach m s' (x :: used)
| br_err pick s used e s' : bids_reach m s used -> bids_get pick s = (Err e, s') -> bids_reach m s' used
| br_done s used x : bids_reach m s used -> In x used -> bids_reach m (ids_done s x) (removeN x used).

Definition bids_inv (m : N) (s : idstore) (used : list N) : Prop :=
  is_max s = m /\ NoDup used /\ (forall x, In x used -> ~ In x (is_ids s)) /\
  (forall x, In x used \/ In x (is_ids s) -> 1 <= x <= is_next s /\ (m <> 0 -> x < m))%N.

Lemma bids_inv_get m s used pick r s' : bids_inv m s used -> bids_get pick s = (r, s') ->
  match r with Ok x => ~ In x used /\ bids_inv m s' (x :: used) | Err e => e = AttributeError /\ is_ids s = [] /\ bids_inv m s' used end.
Proof.
  intros (Hm & HN & HD & HC) E. unfold bids_get in E. destruct (is_ids s) as [|d l] eqn:El.
  - cbv zeta in E. cbn [is_max] in E. rewrite Hm in E. destruct (negb (m =? 0)%N && (m <=? is_next s + 1)%N) eqn:Eb; injection E as <- <-.
    + split; [reflexivity|]. split; [reflexivity|]. unfold bids_inv. cbn [is_max is_ids is_next]. split; [reflexivity|]. split; [exact HN|].
      split; [intros x _ []|]. intros x [Hx|[]]. specialize (HC x (or_introl Hx)). split; [lia|]. intros Hz. now apply HC.
    + assert (Hnew : ~ In (is_next s + 1)%N used) by (intros C; specialize (HC _ (or_introl C)); lia).
      apply andb_false_iff in Eb. rewrite negb_false_iff, N.eqb_eq, N.leb_gt in Eb.
      split; [exact Hnew|]. unfold bids_inv. cbn [is_max is_ids is_next]. split; [reflexivity|]. split; [now constructor|]. split; [intros x _ []|].
      intros x [[<-|Hx]|[]]; [lia|]. specialize (HC x (or_introl Hx)). split; [lia|]. intros Hz. now apply HC.
  - rewrite <- El in *. injection E as <- <-. set (x := nth _ (is_ids s) d).
    assert (Hx : In x (is_ids s)) by (apply nth_In, Nat.mod_upper_bound; rewrite El; discriminate).
    assert (Hnx : ~ In x used) by (intros C; exact (HD x C Hx)). split; [exact Hnx|]. unfold bids_inv. cbn [is_max is_ids is_next].
    split; [exact Hm|]. split; [now constructor|]. split.
    + intros y [<-|Hy] C; apply removeN_iff in C; [tauto|]. exact (HD y Hy (proj1 C)).
    + intros y [[<-|Hy]|Hy]; apply HC; [now right|now left|right]. now apply removeN_iff in Hy.
Qed.

Lemma bids_reach_inv m s used : bids_reach m s used -> bids_inv m s used.
Proof.
  induction 1 as [|pick s used x s' H IH E|pick s used e s' H IH E|s used x H IH Hin].
  - split; [reflexivity|]. split; [constructor|]. split; [intros x []|intros x [[]|[]]].
  - exact (proj2 (bids_inv_get _ _ _ _ _ _ IH E)).
  - exact (proj2 (proj2 (bids_inv_get _ _ _ _ _ _ IH E))).
  - destruct IH as (Hm & HN & HD & HC). unfold bids_inv, ids_done. cbn [is_max is_ids is_next]. split; [exact Hm|]. split; [now apply NoDup_removeN|].
    assert (Em : memN x (is_ids s) = false) by (destruct (memN x (is_ids s)) eqn:Em; [apply memN_iff in Em; destruct (HD x Hin Em)|reflexivity]). rewrite Em. split.
    + intros y Hy [<-|C]; apply removeN_iff in Hy; [tauto|]. exact (HD y (proj1 Hy) C).
    + intros y [Hy|[<-|Hy]]; apply HC; [left; now apply removeN_iff in Hy|now left|now right].
Qed.

(** An identifier handed out is never one in use, however long the store is used;
    all the store can do wrong is raise, and that only with none given back. *)
Theorem C114_ids_fresh : forall m s used pick r s', bids_reach m s used -> bids_get pick s = (r, s') ->
  match r with Ok x => ~ In x used /\ (1 <= x)%N /\ (m <> 0 -> x < m)%N | Err e => e = AttributeError /\ is_ids s = [] end.
Proof.
  intros m s used pick r s' H E. pose proof (bids_inv_get m s used pick r s' (bids_reach_inv m s used H) E) as G. destruct r as [x|e].
  - destruct G as (G1 & _ & _ & _ & G2). specialize (G2 x (or_introl (or_introl eq_refl))). split; [exact G1|]. split; [lia|]. apply G2.
  - split; apply G.
Qed.
Print Assumptions C114_ids_fresh.

(** [n] requests in a row. *)
Fixpoint bids_gets (n : nat) (s : idstore) : list (res N) :=
  match n with O => [] | S n => let (r, s) := bids_get (fun _ => 0%nat) s in r :: bids_gets n s end.

Lemma bids_gets_ok m : (m <> 0)%N -> forall n j, bids_gets n (mk_ids [] j m) =
  map (fun k => let x := (j + N.of_nat k)%N in if (x <? m)%N then Ok x else Err AttributeError) (seq 1 n).
Proof.
  intros Hm. induction n as [|n IH]; intros j; [reflexivity|]. cbn [bids_gets seq map]. unfold bids_get. cbn [is_ids is_next is_max].
  replace (m =? 0)%N with false by (symmetry; now apply N.eqb_neq). cbn [negb andb]. change (N.of_nat 1) with 1%N.
  assert (E : map (fun k => let x := (j + 1 + N.of_nat k)%N in if (x <? m)%N then Ok x else Err AttributeError) (seq 1 n) =
              map (fun k => let x := (j + N.of_nat k)%N in if (x <? m)%N then Ok x else Err AttributeError) (seq 2 n)).
  { rewrite <- (seq_shift n 1), map_map. apply map_ext. intros k. cbv zeta. now replace (j + N.of_nat (S k))%N with (j + 1 + N.of_nat k)%N by lia. }
  cbv zeta. destruct (N.leb_spec m (j + 1)) as [Hl|Hl].
  - replace (j + 1 <? m)%N with false by (symmetry; apply N.ltb_ge; lia). f_equal. rewrite IH. exact E.
  - replace (j + 1 <? m)%N with true by (symmetry; apply N.ltb_lt; lia). f_equal. rewrite IH. exact E.
Qed.

(** "A request always gives an identifier" is false: with none given back, the
    requests give 1, 2, ..., m-1, and every one after those raises. *)
Theorem C114_ids_run_out : forall m n k, (m <> 0)%N -> (k < n)%nat ->
  nth_error (bids_gets n (ids_new m)) k =
    Some (if (N.of_nat k + 1 <? m)%N then Ok (N.of_nat k + 1)%N else Err AttributeError).
Proof.
  intros m n k Hm Hk. unfold ids_new. rewrite bids_gets_ok by exact Hm.
  rewrite (map_nth_error _ k (seq 1 n) (d := (1 + k)%nat)).
  - cbv zeta. replace (0 + N.of_nat (1 + k))%N with (N.of_nat k + 1)%N by lia. reflexivity.
  - rewrite nth_error_nth' with (d := 0%nat) by (rewrite seq_length; exact Hk). now rewrite seq_nth.
Qed.
Print Assumptions C114_ids_run_out.

Theorem C114_ids_refuted : exists m n, (0 < m)%N /\ nth_error (bids_gets n (ids_new m)) (n - 1) = Some (Err AttributeError).
Proof. exists 3%N, 3%nat. split; [lia|reflexivity]. Qed.
Print Assumptions C114_ids_refuted.

Example C114_case : exists s, bids_reach 3 s [2%N] /\ bids_get (fun _ => 7%nat) s = (Ok 1%N, mk_ids [] 2 3) /\
  bids_gets 4 (ids_new 3) = [Ok 1%N; Ok 2%N; Err AttributeError; Err AttributeError].
Proof.
  exists (mk_ids [1%N] 2 3). split; [|split; reflexivity].
  change [2%N] with (removeN 1 [2%N; 1%N]). change (mk_ids [1%N] 2 3) with (ids_done (mk_ids [] 2 3) 1). apply br_done; [|right; now left].
  apply (br_get 3 (fun _ => 0%nat) (mk_ids [] 1 3)); [|reflexivity]. apply (br_get 3 (fun _ => 0%nat) (ids_new 3)); [constructor|reflexivity].
Qed.
