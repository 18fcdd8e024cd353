(** * Property C116: delta2's table counts the octets of shared strings once
      (compressor/delta2/lrustorage.py; the model is D2Store_Model.v). *)
From Coq Require Import String List NArith ZArith Bool Arith Lia.
From Verif Require Import PyBase PyStr PyNum D2Store_Model.
Import ListNotations.
Open Scope Z_scope.

(** ** What a user does with a table *)

(** The argument of KV(...): a text, or the key_ or val_ of an entry held. *)
Inductive source := Text (s : str) | KeyOf (i : nat) | ValOf (i : nat).
Definition arg (l : lru) (x : source) : option rarg :=
  match x with
  | Text s => Some (RStr s)
  | KeyOf i => option_map (fun p => RRef (kv_key (fst p)) (kv_kc (fst p))) (nth_error (l_ring l) i)
  | ValOf i => option_map (fun p => RRef (kv_val (fst p)) (kv_vc (fst p))) (nth_error (l_ring l) i)
  end.

(** An entry is made and stored, or let go (done()) if it is refused; an entry of
    new texts may have room made for it first; entries are dropped. *)
Inductive use (maxb items maxs : option Z) (offset : Z) : heap -> lru -> Prop :=
| use_start : use maxb items maxs offset [] (lru_new maxb items maxs offset)
| use_store h l k v a b h' e l' : use maxb items maxs offset h l -> arg l k = Some a -> arg l v = Some b ->
    kv_new h a b = (h', e) -> kv_kc e <> kv_vc e -> store h' l e = Ok l' -> use maxb items maxs offset h' l'
| use_refused h l k v a b h' e x : use maxb items maxs offset h l -> arg l k = Some a -> arg l v = Some b ->
    kv_new h a b = (h', e) -> store h' l e = Err x -> use maxb items maxs offset (kv_done h' e) l
| use_reserve h l k v h1 e ok h2 l2 gone l3 : use maxb items maxs offset h l -> kv_new h (RStr k) (RStr v) = (h1, e) ->
    reserve h1 l e 1 = (ok, h2, l2, gone) -> (if ok then store h2 l2 e = Ok l3 else l3 = l2) ->
    use maxb items maxs offset (if ok then h2 else kv_done h2 e) l3
| use_pop h l h' l' e : use maxb items maxs offset h l -> pop_one h l = Some (h', l', e) -> use maxb items maxs offset h' l'.

(** The strings held, with the cells they are in; the octets of the different ones. *)
Definition strings (r : list (kv * Z)) : list (nat * str) :=
  flat_map (fun p => [(kv_kc (fst p), kv_key (fst p)); (kv_vc (fst p), kv_val (fst p))]) r.
Definition cell_dec : forall x y : nat * str, {x = y} + {x <> y}.
Proof. intros [a s] [b t]. destruct (Nat.eq_dec a b); [|right; congruence]. destruct (list_eq_dec N.eq_dec s t); [left|right]; congruence. Defined.
Definition different_octets (r : list (kv * Z)) : Z :=
  fold_right (fun p n => Z.of_nat (length (snd p)) + n) 0 (nodup cell_dec (strings r)).

(** ** Proofs *)

Definition cnt (c : nat) (l : list nat) : Z := Z.of_nat (count_occ Nat.eq_dec l c).
Definition osum (ps : list (nat * str)) : Z := fold_right (fun p n => Z.of_nat (length (snd p)) + n) 0 (nodup cell_dec ps).
Definition functional (ps : list (nat * str)) : Prop := forall c s t, In (c, s) ps -> In (c, t) ps -> s = t.

Record inv (h : heap) (l : lru) (fl : list nat) : Prop := {
  i_cnt : forall c, refcnt h c = cnt c (map fst (strings (l_ring l)) ++ fl);
  i_fun : functional (strings (l_ring l));
  i_two : forall p, In p (l_ring l) -> kv_kc (fst p) <> kv_vc (fst p);
  i_sum : l_bytes l = osum (strings (l_ring l));
  i_lim : forall m, l_maxb l = Some m -> 0 <= m -> l_bytes l <= m }.

Lemma cnt_app c a b : cnt c (a ++ b) = cnt c a + cnt c b.
Proof. unfold cnt. rewrite count_occ_app. lia. Qed.
Lemma cnt_cons c d a : cnt c (d :: a) = (if (d =? c)%nat then 1 else 0) + cnt c a.
Proof. unfold cnt. destruct (Nat.eqb_spec d c) as [->|H]; [rewrite count_occ_cons_eq|rewrite count_occ_cons_neq]; auto; lia. Qed.
Lemma cnt_pos c a : 0 <= cnt c a.
Proof. unfold cnt. lia. Qed.
Lemma cnt_in c a : In c a <-> 1 <= cnt c a.
Proof. unfold cnt. rewrite (count_occ_In Nat.eq_dec). lia. Qed.
Lemma cnt_nil c : cnt c [] = 0.
Proof. reflexivity. Qed.

Lemma refcnt_out h c : (length h <= c)%nat -> refcnt h c = 0.
Proof. intros H. unfold refcnt. now apply nth_overflow. Qed.
Lemma refcnt_in h c : refcnt h c <> 0 -> (c < length h)%nat.
Proof. intros H. destruct (Nat.lt_ge_cases c (length h)); [assumption|]. now rewrite refcnt_out in H. Qed.
Lemma update_nth_length {A} (f : A -> A) : forall l i, length (update_nth i f l) = length l.
Proof. induction l as [|x l IH]; intros [|i]; cbn; auto. Qed.
Lemma nth_update (f : Z -> Z) h : forall c d, (c < length h)%nat -> nth d (update_nth c f h) 0 = if (c =? d)%nat then f (nth d h 0) else nth d h 0.
Proof.
  induction h as [|x h IH]; intros [|c] [|d] H; cbn in H |- *; try lia; try reflexivity. apply IH. lia.
Qed.
Lemma refcnt_done h c d : (c < length h)%nat -> refcnt (ref_done h c) d = refcnt h d - if (c =? d)%nat then 1 else 0.
Proof. intros H. unfold refcnt, ref_done. rewrite nth_update by exact H. destruct (c =? d)%nat; lia. Qed.

Definition sound (h : heap) (x : rarg) : Prop := match x with RStr _ => True | RRef _ c => (c < length h)%nat end.
Lemma refcnt_new h x h' c d : sound h x -> ref_new h x = (h', c) -> refcnt h' d = refcnt h d + if (c =? d)%nat then 1 else 0.
Proof.
  destruct x as [s|s c0]; cbn [sound ref_new]; intros H E.
  - assert (h' = h ++ [1]) as -> by congruence. assert (c = length h) as -> by congruence. unfold refcnt.
    destruct (Nat.lt_trichotomy d (length h)) as [L|[->|L]].
    + rewrite app_nth1 by lia. destruct (Nat.eqb_spec (length h) d); lia.
    + rewrite app_nth2 by lia. rewrite Nat.sub_diag, Nat.eqb_refl, (nth_overflow h) by lia. reflexivity.
    + rewrite !nth_overflow by (rewrite ?app_length; cbn; lia). destruct (Nat.eqb_spec (length h) d); lia.
  - assert (h' = update_nth c0 (fun n => n + 1) h) as -> by congruence. assert (c = c0) as -> by congruence. unfold refcnt.
    rewrite nth_update by exact H. destruct (c0 =? d)%nat; lia.
Qed.
Lemma new_length h x h' c : sound h x -> ref_new h x = (h', c) -> (length h <= length h')%nat.
Proof.
  destruct x as [s|s c0]; cbn [ref_new]; intros H E.
  - assert (h' = h ++ [1]) as -> by congruence. rewrite app_length. lia.
  - assert (h' = update_nth c0 (fun n => n + 1) h) as -> by congruence. now rewrite update_nth_length.
Qed.
Lemma kv_counts h a b h' e d : sound h a -> sound h b -> kv_new h a b = (h', e) ->
  refcnt h' d = refcnt h d + cnt d [kv_kc e; kv_vc e].
Proof.
  intros Ha Hb. unfold kv_new. destruct (ref_new h a) as [h1 kc] eqn:E1. destruct (ref_new h1 b) as [h2 vc] eqn:E2. intros E.
  assert (h' = h2) as -> by congruence. assert (e = mk_kv (rarg_str a) kc (rarg_str b) vc) as -> by congruence. cbn [kv_kc kv_vc].
  pose proof (new_length _ _ _ _ Ha E1) as L.
  assert (Hb' : sound h1 b) by (destruct b; cbn [sound] in *; [exact I|lia]).
  rewrite (refcnt_new _ _ _ _ d Hb' E2), (refcnt_new _ _ _ _ d Ha E1), !cnt_cons, cnt_nil. lia.
Qed.

(** Sums over different strings. *)
Lemma osum_cons c s ps : functional ((c, s) :: ps) ->
  osum ((c, s) :: ps) = (if existsb (Nat.eqb c) (map fst ps) then 0 else Z.of_nat (length s)) + osum ps.
Proof.
  intros F. unfold osum. cbn [nodup]. destruct (in_dec cell_dec (c, s) ps) as [H|H].
  - replace (existsb (Nat.eqb c) (map fst ps)) with true; [lia|]. symmetry. apply existsb_exists. exists c. split; [now apply (in_map fst) in H|apply Nat.eqb_refl].
  - replace (existsb (Nat.eqb c) (map fst ps)) with false; [reflexivity|]. symmetry. apply Bool.not_true_iff_false. rewrite existsb_exists. intros (d & Hd & E).
    apply Nat.eqb_eq in E as <-. apply in_map_iff in Hd as ([d t] & E & Hp). cbn in E. subst d. apply H.
    rewrite (F c s t); [exact Hp|now left|now right].
Qed.
Lemma fun_tail p ps : functional (p :: ps) -> functional ps.
Proof. intros F c s t H1 H2. apply (F c); now right. Qed.
Lemma existsb_cnt c l : existsb (Nat.eqb c) l = (1 <=? cnt c l).
Proof.
  apply Bool.eq_iff_eq_true. rewrite existsb_exists, Z.leb_le, <- cnt_in. split; [intros (d & H & E); apply Nat.eqb_eq in E; now subst|].
  intros H. exists c. split; [exact H|apply Nat.eqb_refl].
Qed.
Lemma osum_snoc c s ps : functional (ps ++ [(c, s)]) ->
  osum (ps ++ [(c, s)]) = osum ps + if 1 <=? cnt c (map fst ps) then 0 else Z.of_nat (length s).
Proof.
  induction ps as [|[d t] ps IH]; intros F; cbn [app map].
  - unfold osum. cbn. lia.
  - cbn [app] in F. assert (F' := fun_tail _ _ F). rewrite (osum_cons d t (ps ++ [(c, s)]) F). rewrite (IH F'). rewrite map_app. cbn [map fst].
    rewrite (osum_cons d t ps) by (intros x y z H1 H2; apply (F x); cbn [In] in *; rewrite in_app_iff; tauto).
    rewrite !existsb_cnt, cnt_app, !cnt_cons, cnt_nil.
    pose proof (cnt_pos d (map fst ps)). pose proof (cnt_pos c (map fst ps)).
    rewrite (Nat.eqb_sym c d). destruct (Nat.eqb_spec d c) as [->|Hne].
    + assert (s = t) as -> by (apply (F c); [right; apply in_or_app; right; now left|now left]).
      destruct (Z.leb_spec 1 (cnt c (map fst ps))); [rewrite (proj2 (Z.leb_le _ _)) by lia; rewrite (proj2 (Z.leb_le 1 (1 + cnt c (map fst ps)))) by lia; lia|].
      rewrite (proj2 (Z.leb_le 1 (cnt c (map fst ps) + (1 + 0)))) by lia. rewrite (proj2 (Z.leb_le 1 (1 + cnt c (map fst ps)))) by lia. lia.
    + replace (cnt d (map fst ps) + (0 + 0)) with (cnt d (map fst ps)) by lia. replace (0 + cnt c (map fst ps)) with (cnt c (map fst ps)) by lia. lia.
Qed.
Lemma strings_app a b : strings (a ++ b) = strings a ++ strings b.
Proof. unfold strings. apply flat_map_app. Qed.

(** Dropping the oldest while other strings ([fl]) are outside the table. *)
Lemma pop_inv h l fl h' l' e : inv h l fl -> (forall c, In c fl -> ~ In c (map fst (strings (l_ring l)))) -> pop_one h l = Some (h', l', e) ->
  inv h' l' fl /\ l_ring l = e :: l_ring l' /\ l_maxb l' = l_maxb l.
Proof.
  intros [Hc Hf Ht Hs Hl] Hd. unfold pop_one. destruct (l_ring l) as [|e0 r] eqn:Er; [discriminate|]. intros E.
  assert (h' = kv_done h (fst e0)) as -> by congruence.
  assert (l' = set_ring l r (l_bytes l - kv_size h (fst e0))) as -> by congruence. assert (e = e0) as -> by congruence.
  cbn [set_ring l_ring l_maxb]. split; [|split; reflexivity]. clear E.
  set (kc := kv_kc (fst e0)) in *. set (vc := kv_vc (fst e0)) in *.
  assert (Hkv : kc <> vc) by (apply Ht; now left).
  assert (Hcells : strings (e0 :: r) = (kc, kv_key (fst e0)) :: (vc, kv_val (fst e0)) :: strings r) by reflexivity.
  rewrite Hcells in *. cbn [map fst app] in Hc. set (R := map fst (strings r)) in *.
  assert (Hk : refcnt h kc = 1 + cnt kc R) .
  { rewrite Hc, !cnt_cons, Nat.eqb_refl, cnt_app. destruct (Nat.eqb_spec vc kc); [congruence|].
    enough (cnt kc fl = 0) by lia. pose proof (cnt_pos kc fl). destruct (Z.eq_dec (cnt kc fl) 0); [assumption|]. exfalso. apply (Hd kc); [apply cnt_in; lia|now left]. }
  assert (Hv : refcnt h vc = 1 + cnt vc R).
  { rewrite Hc, !cnt_cons, Nat.eqb_refl, cnt_app. destruct (Nat.eqb_spec kc vc); [congruence|].
    enough (cnt vc fl = 0) by lia. pose proof (cnt_pos vc fl). destruct (Z.eq_dec (cnt vc fl) 0); [assumption|]. exfalso. apply (Hd vc); [apply cnt_in; lia|now right; left]. }
  pose proof (cnt_pos kc R). pose proof (cnt_pos vc R).
  assert (Lk : (kc < length h)%nat) by (apply refcnt_in; lia). assert (Lv : (vc < length h)%nat) by (apply refcnt_in; lia).
  assert (Hsz : kv_size h (fst e0) = (if 1 <=? cnt vc R then 0 else Z.of_nat (length (kv_val (fst e0)))) + (if 1 <=? cnt kc R then 0 else Z.of_nat (length (kv_key (fst e0))))).
  { unfold kv_size, ref_len. fold kc vc. rewrite Hk, Hv. f_equal; [destruct (Z.leb_spec 1 (cnt vc R))|destruct (Z.leb_spec 1 (cnt kc R))]; (destruct (Z.ltb_spec 1 (1 + cnt vc R)) || idtac); try lia; destruct (Z.ltb_spec 1 (1 + cnt kc R)); try lia; reflexivity. }
  split.
  - intros c. cbn [set_ring l_ring]. unfold kv_done. fold kc vc. rewrite refcnt_done by (unfold ref_done; now rewrite update_nth_length). rewrite refcnt_done by exact Lk.
    rewrite Hc, !cnt_cons. fold R. lia.
  - apply (fun_tail _ _ (fun_tail _ _ Hf)).
  - cbn. intros p Hp. apply Ht. now right.
  - cbn [set_ring l_bytes l_ring]. rewrite Hs, Hsz, (osum_cons _ _ _ Hf), (osum_cons _ _ _ (fun_tail _ _ Hf)), !existsb_cnt. cbn [map fst]. fold R. rewrite cnt_cons.
    destruct (Nat.eqb_spec vc kc); [congruence|]. rewrite Z.add_0_l. lia.
  - cbn [set_ring l_bytes l_maxb]. intros m Hm Hp. specialize (Hl m Hm Hp). rewrite Hsz. destruct (1 <=? cnt vc R), (1 <=? cnt kc R); lia.
Qed.

Lemma arg_ok h l x a : inv h l [] -> arg l x = Some a -> sound h a /\ forall s c, a = RRef s c -> In (c, s) (strings (l_ring l)).
Proof.
  intros I E. assert (G : forall s c, In (c, s) (strings (l_ring l)) -> (c < length h)%nat).
  { intros s c H. apply refcnt_in. rewrite (i_cnt _ _ _ I), app_nil_r. apply (in_map fst) in H. cbn [fst] in H. apply cnt_in in H. lia. }
  destruct x as [s|i|i]; cbn [arg] in E.
  - assert (a = RStr s) as -> by congruence. split; [exact Logic.I|discriminate].
  - destruct (nth_error (l_ring l) i) as [p|] eqn:Ep; [|discriminate]. cbn in E. assert (a = RRef (kv_key (fst p)) (kv_kc (fst p))) as -> by congruence.
    assert (Hin : In (kv_kc (fst p), kv_key (fst p)) (strings (l_ring l))) by (apply in_flat_map; exists p; split; [now apply nth_error_In in Ep|now left]).
    split; [exact (G _ _ Hin)|]. intros s c H. injection H as <- <-. exact Hin.
  - destruct (nth_error (l_ring l) i) as [p|] eqn:Ep; [|discriminate]. cbn in E. assert (a = RRef (kv_val (fst p)) (kv_vc (fst p))) as -> by congruence.
    assert (Hin : In (kv_vc (fst p), kv_val (fst p)) (strings (l_ring l))) by (apply in_flat_map; exists p; split; [now apply nth_error_In in Ep|right; now left]).
    split; [exact (G _ _ Hin)|]. intros s c H. injection H as <- <-. exact Hin.
Qed.

Definition agrees (l : lru) (e : kv) : Prop :=
  (forall t, In (kv_kc e, t) (strings (l_ring l)) -> t = kv_key e) /\ (forall t, In (kv_vc e, t) (strings (l_ring l)) -> t = kv_val e).

Lemma new_inv h l a b h' e : inv h l [] -> (sound h a /\ forall s c, a = RRef s c -> In (c, s) (strings (l_ring l))) ->
  (sound h b /\ forall s c, b = RRef s c -> In (c, s) (strings (l_ring l))) -> kv_new h a b = (h', e) ->
  inv h' l [kv_kc e; kv_vc e] /\ agrees l e.
Proof.
  intros I [Ha Na] [Hb Nb] E. assert (Hn := fun d => kv_counts _ _ _ _ _ d Ha Hb E).
  assert (Hout : forall c t, (length h <= c)%nat -> ~ In (c, t) (strings (l_ring l))).
  { intros c t L H. apply (in_map fst) in H. cbn [fst] in H. apply cnt_in in H. pose proof (i_cnt _ _ _ I c) as C. rewrite app_nil_r, refcnt_out in C by exact L. lia. }
  split.
  - destruct I as [Hc Hf Ht Hs Hl]. split; auto. intros c. rewrite Hn, Hc, app_nil_r, cnt_app. reflexivity.
  - unfold kv_new in E. destruct (ref_new h a) as [h1 kc] eqn:E1. destruct (ref_new h1 b) as [h2 vc] eqn:E2.
    assert (e = mk_kv (rarg_str a) kc (rarg_str b) vc) as -> by congruence. unfold agrees. cbn [kv_kc kv_vc kv_key kv_val].
    pose proof (new_length _ _ _ _ Ha E1) as L. split; intros t Hin.
    + destruct a as [s|s c]; cbn [ref_new] in E1; [assert (kc = length h) as -> by congruence; now apply Hout in Hin|].
      assert (kc = c) as -> by congruence. apply (i_fun _ _ _ I c); [exact Hin|now apply Na].
    + destruct b as [s|s c]; cbn [ref_new] in E2; [assert (vc = length h1) as -> by congruence; now apply Hout in Hin|].
      assert (vc = c) as -> by congruence. apply (i_fun _ _ _ I c); [exact Hin|now apply Nb].
Qed.

Lemma store_inv h l e l' : inv h l [kv_kc e; kv_vc e] -> agrees l e -> kv_kc e <> kv_vc e -> store h l e = Ok l' -> inv h l' [] /\ l_maxb l' = l_maxb l.
Proof.
  intros [Hc Hf Ht Hs Hl] [Ak Av] Hkv. unfold store.
  destruct (match l_maxb l with Some m => m <? l_bytes l + kv_size h e | None => false end) eqn:E1; [discriminate|].
  destruct (match l_items l with Some m => negb (m =? 0) && (m <? ring_len l + 1) | None => false end); [discriminate|]. intros E.
  match type of E with Ok ?x = _ => assert (l' = x) as -> by congruence end. cbn [l_maxb]. split; [|reflexivity]. clear E.
  assert (Hst : strings (l_ring l ++ [(e, l_seq l)]) = (strings (l_ring l) ++ [(kv_kc e, kv_key e)]) ++ [(kv_vc e, kv_val e)]).
  { rewrite strings_app, <- app_assoc. reflexivity. }
  assert (F1 : functional (strings (l_ring l) ++ [(kv_kc e, kv_key e)])).
  { intros c s t H1 H2. apply in_app_or in H1, H2. destruct H1 as [H1|[H1|[]]], H2 as [H2|[H2|[]]]; try (injection H1 as ? ?); try (injection H2 as ? ?); subst; solve [eauto|congruence|symmetry; eauto]. }
  assert (F2 : functional ((strings (l_ring l) ++ [(kv_kc e, kv_key e)]) ++ [(kv_vc e, kv_val e)])).
  { intros c s t H1 H2. rewrite !in_app_iff in H1, H2. cbn [In] in H1, H2.
    destruct H1 as [[H1|[H1|[]]]|[H1|[]]], H2 as [[H2|[H2|[]]]|[H2|[]]]; try (injection H1 as ? ?); try (injection H2 as ? ?); subst; solve [eauto|congruence|symmetry; eauto]. }
  set (R := map fst (strings (l_ring l))) in *.
  assert (Hk : refcnt h (kv_kc e) = 1 + cnt (kv_kc e) R).
  { rewrite Hc, cnt_app, !cnt_cons, Nat.eqb_refl, cnt_nil. destruct (Nat.eqb_spec (kv_vc e) (kv_kc e)); [congruence|]. lia. }
  assert (Hv : refcnt h (kv_vc e) = 1 + cnt (kv_vc e) R).
  { rewrite Hc, cnt_app, !cnt_cons, Nat.eqb_refl, cnt_nil. destruct (Nat.eqb_spec (kv_kc e) (kv_vc e)); [congruence|]. lia. }
  pose proof (cnt_pos (kv_kc e) R). pose proof (cnt_pos (kv_vc e) R).
  assert (Hsz : kv_size h e = (if 1 <=? cnt (kv_vc e) R then 0 else Z.of_nat (length (kv_val e))) + (if 1 <=? cnt (kv_kc e) R then 0 else Z.of_nat (length (kv_key e)))).
  { unfold kv_size, ref_len. rewrite Hk, Hv. f_equal.
    - destruct (Z.leb_spec 1 (cnt (kv_vc e) R)), (Z.ltb_spec 1 (1 + cnt (kv_vc e) R)); try lia; reflexivity.
    - destruct (Z.leb_spec 1 (cnt (kv_kc e) R)), (Z.ltb_spec 1 (1 + cnt (kv_kc e) R)); try lia; reflexivity. }
  split; cbn [l_ring l_bytes l_maxb].
  - intros c. rewrite Hst, !map_app, app_nil_r. cbn [map fst]. fold R. rewrite Hc, !cnt_app, !cnt_cons, cnt_nil. lia.
  - rewrite Hst. exact F2.
  - intros p Hp. apply in_app_or in Hp as [Hp|[<-|[]]]; [now apply Ht|exact Hkv].
  - rewrite Hst, (osum_snoc _ _ _ F2), (osum_snoc _ _ _ F1), map_app, cnt_app. cbn [map fst]. fold R. rewrite cnt_cons, cnt_nil, Hs, Hsz.
    destruct (Nat.eqb_spec (kv_kc e) (kv_vc e)); [congruence|]. rewrite Z.add_0_r. rewrite Z.add_0_r || idtac. lia.
  - intros m Hm Hp. rewrite Hm in E1. apply Z.ltb_ge in E1. lia.
Qed.

Lemma done_inv h l e : inv h l [kv_kc e; kv_vc e] -> inv (kv_done h e) l [].
Proof.
  intros [Hc Hf Ht Hs Hl]. set (R := map fst (strings (l_ring l))) in *.
  assert (L : forall c, In c [kv_kc e; kv_vc e] -> (c < length h)%nat).
  { intros c H. apply refcnt_in. rewrite Hc, cnt_app. apply cnt_in in H. pose proof (cnt_pos c R). lia. }
  split; auto. intros c. unfold kv_done. rewrite refcnt_done by (unfold ref_done; rewrite update_nth_length; apply L; right; now left). rewrite refcnt_done by (apply L; now left).
  fold R. rewrite Hc, app_nil_r, cnt_app, !cnt_cons, cnt_nil. lia.
Qed.

Lemma pop_while_inv cond fl : forall fuel h l popped ok h' l' gone, inv h l fl -> (forall c, In c fl -> ~ In c (map fst (strings (l_ring l)))) ->
  pop_while cond fuel h l popped = (ok, h', l', gone) -> inv h' l' fl /\ (forall c, In c fl -> ~ In c (map fst (strings (l_ring l')))) /\ l_maxb l' = l_maxb l.
Proof.
  induction fuel as [|f IH]; intros h l popped ok h' l' gone I D; cbn [pop_while]; destruct (cond h l).
  2, 4: intros E; assert (h' = h) as -> by congruence; assert (l' = l) as -> by congruence; auto.
  all: destruct (pop_one h l) as [[[h1 l1] e]|] eqn:Ep.
  2, 4: intros E; assert (h' = h) as -> by congruence; assert (l' = l) as -> by congruence; auto.
  all: destruct (pop_inv _ _ _ _ _ _ I D Ep) as (I1 & Er & Em); assert (D1 : forall c, In c fl -> ~ In c (map fst (strings (l_ring l1)))) by (intros c Hc Hi; apply (D c Hc); rewrite Er; cbn; auto).
  - intros E; assert (h' = h1) as -> by congruence; assert (l' = l1) as -> by congruence; auto.
  - intros E. destruct (IH _ _ _ _ _ _ _ I1 D1 E) as (A & B & C). split; [assumption|]; split; [assumption|congruence].
Qed.
Lemma reserve_inv h l e n ok h' l' gone : inv h l [kv_kc e; kv_vc e] -> (forall c, In c [kv_kc e; kv_vc e] -> ~ In c (map fst (strings (l_ring l)))) ->
  reserve h l e n = (ok, h', l', gone) -> inv h' l' [kv_kc e; kv_vc e] /\ (forall c, In c [kv_kc e; kv_vc e] -> ~ In c (map fst (strings (l_ring l')))) /\ l_maxb l' = l_maxb l.
Proof.
  intros I D. unfold reserve. destruct (is_zero (l_items l) || is_zero (l_maxb l)).
  { intros E; assert (h' = h) as -> by congruence; assert (l' = l) as -> by congruence; auto. }
  assert (G : forall ok1 h1 l1 p1, match l_items l with
      | Some m => pop_while (fun _ l => m <? ring_len l + n) (length (l_ring l)) h l []
      | None => (true, h, l, []) end = (ok1, h1, l1, p1) -> inv h1 l1 [kv_kc e; kv_vc e] /\ (forall c, In c [kv_kc e; kv_vc e] -> ~ In c (map fst (strings (l_ring l1)))) /\ l_maxb l1 = l_maxb l).
  { intros ok1 h1 l1 p1. destruct (l_items l); [apply pop_while_inv; auto|]. intros E; assert (h1 = h) as -> by congruence; assert (l1 = l) as -> by congruence; auto. }
  destruct (match l_items l with Some m => _ | None => _ end) as [[[ok1 h1] l1] p1]. specialize (G _ _ _ _ eq_refl). destruct G as (I1 & D1 & M1).
  assert (K : (true, h1, l1, p1) = (ok, h', l', gone) \/ (false, h1, l1, p1) = (ok, h', l', gone) -> h' = h1 /\ l' = l1) by (intros [E|E]; split; congruence).
  destruct ok1; [destruct (l_maxb l1) eqn:Em|].
  - intros E. apply (pop_while_inv _ _ _ _ _ _ _ _ _ _ I1 D1) in E as (A & B & C). split; [assumption|]; split; [assumption|congruence].
  - intros E. destruct (K (or_introl E)) as [-> ->]. split; [assumption|]; split; [assumption|congruence].
  - intros E. destruct (K (or_intror E)) as [-> ->]. auto.
Qed.

Lemma use_inv maxb items maxs offset h l : use maxb items maxs offset h l -> inv h l [] /\ l_maxb l = maxb.
Proof.
  intros U. induction U as [|h l k v a b h' e l' _ [I M] Ea Eb En Ne Es|h l k v a b h' e x _ [I M] Ea Eb En Es|h l k v h1 e ok h2 l2 gone l3 _ [I M] En Er Es|h l h' l' e _ [I M] Ep].
  - split; [|reflexivity]. split; cbn; auto; try contradiction.
    + intros c. now destruct c.
    + intros c s t [].
  - destruct (new_inv _ _ _ _ _ _ I (arg_ok _ _ _ _ I Ea) (arg_ok _ _ _ _ I Eb) En) as [I1 A]. destruct (store_inv _ _ _ _ I1 A Ne Es) as [I2 M2]. split; [exact I2|congruence].
  - destruct (new_inv _ _ _ _ _ _ I (arg_ok _ _ _ _ I Ea) (arg_ok _ _ _ _ I Eb) En) as [I1 A]. split; [now apply done_inv|exact M].
  - assert (S0 : forall s, sound h (RStr s) /\ forall s' c, RStr s = RRef s' c -> In (c, s') (strings (l_ring l))) by (intros s; split; [exact Logic.I|discriminate]).
    destruct (new_inv _ _ _ _ _ _ I (S0 k) (S0 v) En) as [I1 A].
    assert (Ec : kv_kc e = length h /\ kv_vc e = S (length h) /\ kv_key e = k /\ kv_val e = v).
    { unfold kv_new in En. cbn [ref_new] in En. match type of En with (_, ?x) = _ => assert (e = x) as -> by congruence end. cbn. rewrite app_length. cbn. repeat split; lia. }
    destruct Ec as (Ek & Ev & Sk & Sv).
    assert (D : forall c, In c [kv_kc e; kv_vc e] -> ~ In c (map fst (strings (l_ring l)))).
    { intros c Hc Hi. apply cnt_in in Hi. pose proof (i_cnt _ _ _ I c) as C. rewrite app_nil_r, refcnt_out in C; [lia|]. destruct Hc as [<-|[<-|[]]]; lia. }
    destruct (reserve_inv _ _ _ _ _ _ _ _ I1 D Er) as (I2 & D2 & M2). destruct ok.
    + assert (A2 : agrees l2 e).
      { split; intros t Ht; exfalso; [apply (D2 (kv_kc e))|apply (D2 (kv_vc e))]; try (now left); try (right; now left); apply (in_map fst) in Ht; exact Ht. }
      destruct (store_inv _ _ _ _ I2 A2 ltac:(lia) Es) as [I3 M3]. split; [exact I3|congruence].
    + subst l3. split; [now apply done_inv|congruence].
  - destruct (pop_inv _ _ _ _ _ _ I ltac:(intros c []) Ep) as (I1 & _ & M1). split; [exact I1|congruence].
Qed.

(** ** C116 *)

(** Whatever is done in these ways, byte_size is the octets of the different strings
    held, and within the limit; so nothing is left of it when the table is empty. *)
Theorem C116_counted_once : forall maxb items maxs offset h l, use maxb items maxs offset h l ->
  l_bytes l = different_octets (l_ring l) /\ (forall m, maxb = Some m -> 0 <= m -> l_bytes l <= m).
Proof.
  intros maxb items maxs offset h l U. destruct (use_inv _ _ _ _ _ _ U) as [[_ _ _ Hs Hl] M]. split; [exact Hs|]. intros m -> Hm. now apply Hl.
Qed.
Print Assumptions C116_counted_once.

Theorem C116_empty : forall maxb items maxs offset h l, use maxb items maxs offset h l -> l_ring l = [] -> l_bytes l = 0.
Proof. intros maxb items maxs offset h l U E. rewrite (proj1 (C116_counted_once _ _ _ _ _ _ U)), E. reflexivity. Qed.
Print Assumptions C116_empty.

(** A reference count is the number of places in the table that have the string. *)
Theorem C116_counts_places : forall maxb items maxs offset h l, use maxb items maxs offset h l ->
  forall c, refcnt h c = Z.of_nat (count_occ Nat.eq_dec (map fst (strings (l_ring l))) c).
Proof. intros maxb items maxs offset h l U c. destruct (use_inv _ _ _ _ _ _ U) as [[Hc _ _ _ _] _]. specialize (Hc c). now rewrite app_nil_r in Hc. Qed.
Print Assumptions C116_counts_places.

(** ** Room made for an entry that shares strings *)

(** As Storage.InsertVal does (spdy4_codec_impl.py, lines 731-735): first the entry,
    then Reserve, then Store. *)
Inductive any_use (maxb items maxs : option Z) (offset : Z) : heap -> lru -> Prop :=
| any_start : any_use maxb items maxs offset [] (lru_new maxb items maxs offset)
| any_insert h l k v a b h1 e ok h2 l2 gone l3 : any_use maxb items maxs offset h l -> arg l k = Some a -> arg l v = Some b ->
    kv_new h a b = (h1, e) -> kv_kc e <> kv_vc e ->
    reserve h1 l e 1 = (ok, h2, l2, gone) -> (if ok then store h2 l2 e = Ok l3 else l3 = l2) ->
    any_use maxb items maxs offset (if ok then h2 else kv_done h2 e) l3
| any_pop h l h' l' e : any_use maxb items maxs offset h l -> pop_one h l = Some (h', l', e) -> any_use maxb items maxs offset h' l'.

(** If Reserve drops the other entry with the string, the string is counted a second
    time and never taken off again.  A table of ten octets and one entry ends up
    empty, with ten octets counted, and takes no entry but the empty one any more. *)
(** A step computed. *)
Definition insert_step (s : heap * lru) (k v : source) : option (heap * lru) :=
  let '(h, l) := s in
  match arg l k, arg l v with
  | Some a, Some b =>
      let (h1, e) := kv_new h a b in
      if (kv_kc e =? kv_vc e)%nat then None
      else
        let '(ok, h2, l2, _) := reserve h1 l e 1 in
        if ok then match store h2 l2 e with Ok l3 => Some (h2, l3) | Err _ => None end else Some (kv_done h2 e, l2)
  | _, _ => None
  end.
Lemma insert_step_ok maxb items maxs offset h l k v h' l' : any_use maxb items maxs offset h l -> insert_step (h, l) k v = Some (h', l') -> any_use maxb items maxs offset h' l'.
Proof.
  intros U. unfold insert_step. destruct (arg l k) as [a|] eqn:Ea; [|discriminate]. destruct (arg l v) as [b|] eqn:Eb; [|discriminate].
  destruct (kv_new h a b) as [h1 e] eqn:En. destruct (Nat.eqb_spec (kv_kc e) (kv_vc e)) as [|Ne]; [discriminate|].
  destruct (reserve h1 l e 1) as [[[ok h2] l2] gone] eqn:Er.
  pose proof (fun l3 H => any_insert _ _ _ _ _ _ _ _ _ _ _ _ ok _ _ _ l3 U Ea Eb En Ne Er H) as K. destruct ok.
  - destruct (store h2 l2 e) as [l3|] eqn:Es; [|discriminate]. intros E. assert (h' = h2) as -> by congruence. assert (l' = l3) as -> by congruence. now apply K.
  - intros E. assert (h' = kv_done h2 e) as -> by congruence. assert (l' = l2) as -> by congruence. now apply K.
Qed.

Theorem C116_reserve_refuted : exists h l, any_use (Some 10) (Some 1) None 0 h l /\ l_ring l = [] /\ l_bytes l = 10 /\
  forall k v h1 e, kv_new h (RStr k) (RStr v) = (h1, e) -> (0 < length k + length v)%nat ->
    fst (fst (fst (reserve h1 l e 1))) = false /\ store h1 l e = Err MemoryError.
Proof.
  assert (G : exists h l, any_use (Some 10) (Some 1) None 0 h l /\ l = mk_lru [] 10 (Some 1) (Some 10) None 0 3 /\ length h = 6%nat).
  { pose proof (any_start (Some 10) (Some 1) None 0) as U0.
    assert (E1 : exists h l, insert_step ([], lru_new (Some 10) (Some 1) None 0) (Text (lit "abcde")) (Text []) = Some (h, l) /\
       exists h2 l2, insert_step (h, l) (KeyOf 0) (Text []) = Some (h2, l2) /\
       exists h3 l3 e, pop_one h2 l2 = Some (h3, l3, e) /\
       exists h4 l4, insert_step (h3, l3) (Text (lit "fghij")) (Text []) = Some (h4, l4) /\
       exists h5 l5, insert_step (h4, l4) (KeyOf 0) (Text []) = Some (h5, l5) /\ l5 = mk_lru [] 10 (Some 1) (Some 10) None 0 3 /\ length h5 = 6%nat).
    { do 2 eexists. split; [vm_compute; reflexivity|]. do 2 eexists. split; [vm_compute; reflexivity|]. do 3 eexists. split; [vm_compute; reflexivity|].
      do 2 eexists. split; [vm_compute; reflexivity|]. do 2 eexists. split; [vm_compute; reflexivity|]. split; reflexivity. }
    destruct E1 as (h1 & l1 & E1 & h2 & l2 & E2 & h3 & l3 & e & E3 & h4 & l4 & E4 & h5 & l5 & E5 & El & Eh). exists h5, l5. split; [|split; assumption].
    eapply insert_step_ok; [|exact E5]. eapply insert_step_ok; [|exact E4]. eapply any_pop; [|exact E3]. eapply insert_step_ok; [|exact E2]. eapply insert_step_ok; [exact U0|exact E1]. }
  destruct G as (h & l & U & -> & Lh). do 2 eexists. split; [exact U|]. cbn [l_ring l_bytes]. split; [reflexivity|]. split; [reflexivity|].
  intros k v h1 e E Hp. unfold kv_new in E. cbn [ref_new] in E.
  assert (S : kv_size h1 e = Z.of_nat (length v) + Z.of_nat (length k)).
  { match type of E with (?x, ?y) = _ => assert (h1 = x) as -> by congruence; assert (e = y) as -> by congruence end. unfold kv_size, ref_len. cbn [kv_vc kv_kc kv_key kv_val rarg_str]. unfold refcnt.
    rewrite app_length. cbn [length]. rewrite !app_nth2 by (rewrite ?app_length; cbn; lia). rewrite !app_length. cbn [length]. rewrite Lh. cbn [Nat.add Nat.sub].
    rewrite app_nth1 by (rewrite app_length, Lh; cbn; lia). rewrite app_nth2 by lia. rewrite Lh. reflexivity. }
  assert (C : 10 <? 10 + kv_size h1 e = true) by (apply Z.ltb_lt; lia). split.
  - assert (P : forall cond n h l, l_ring l = [] -> pop_while cond n h l [] = if cond h l then (false, h, l, []) else (true, h, l, [])).
    { intros cond n h0 l Hr. destruct n; cbn [pop_while]; unfold pop_one; rewrite Hr; reflexivity. }
    unfold reserve. cbn [is_zero orb l_items l_maxb]. rewrite P by reflexivity.
    change (1 <? ring_len {| l_ring := []; l_bytes := 10; l_items := Some 1; l_maxb := Some 10; l_maxs := None; l_offset := 0; l_seq := 3 |} + 1) with false.
    cbv iota. cbn [l_maxb]. rewrite P by reflexivity. cbn [l_bytes]. rewrite C. reflexivity.
  - unfold store. cbn [l_maxb l_bytes]. now rewrite C.
Qed.
Print Assumptions C116_reserve_refuted.

(** ** The cases of compressor/delta2/lrustorage_test.py *)

Definition numbered (prefix : string) (n : nat) (i : nat) : str := lit prefix ++ repeat 48%N (n - length (dec (N.of_nat i))) ++ dec (N.of_nat i).
Definition put (hl : res (heap * lru)) (k v : str) : res (heap * lru) :=
  match hl with Ok (h, l) => let (h, e) := kv_new h (RStr k) (RStr v) in match store h l e with Ok l => Ok (h, l) | Err x => Err x end | Err x => Err x end.
Definition make_room (hl : res (heap * lru)) (k v : str) : res (heap * lru) :=
  match hl with Ok (h, l) => let (h, e) := kv_new h (RStr k) (RStr v) in let '(_, h, l, _) := reserve h l e 1 in Ok (h, l) | Err x => Err x end.
Definition filled (maxb items : Z) (n : nat) : res (heap * lru) :=
  fold_left (fun s i => put s (numbered "key_" 3 i) (numbered "val_" 3 i)) (seq 0 n) (Ok ([], lru_new (Some maxb) (Some items) None 0)).

(** test_BasicFunctionality, test_FindKeyValEntries *)
Example C116_test_basic : match filled 140 10 10 with
  | Ok (_, l) => ring_len l = 10 /\ l_bytes l = 140 /\
      map (fun i => match lookup l (Z.of_nat i) with Ok (e, s) => (kv_key e, kv_val e, s) | Err _ => ([], [], -1) end) (seq 0 10) =
      map (fun i => (numbered "key_" 3 i, numbered "val_" 3 i, Z.of_nat i)) (seq 0 10) /\
      find_entries l (lit "key_009") [] = (Some 9, None) /\ find_entries l (lit "key_001") (lit "val_001") = (Some 1, Some 1)
  | Err _ => False end.
Proof. vm_compute. repeat split. Qed.

(** test_MaxItemSize, test_MaxByteSize *)
Example C116_test_limits : filled 10000000 10 11 = Err MemoryError /\ (exists s, filled 126 10 9 = Ok s) /\ filled 126 10 10 = Err MemoryError.
Proof. split; [vm_compute; reflexivity|]. split; [eexists; vm_compute; reflexivity|vm_compute; reflexivity]. Qed.

(** test_PopOne *)
Fixpoint pops (n : nat) (h : heap) (l : lru) : option (list (res (kv * Z) * res (kv * Z)) * heap * lru) :=
  match n with
  | O => Some ([], h, l)
  | S n => match pop_one h l with
           | Some (h', l', e) => option_map (fun '(s, h2, l2) => ((lookup l (snd e), lookup l' (snd e)) :: s, h2, l2)) (pops n h' l')
           | None => None end
  end.
Example C116_test_pop : match filled 140 10 10 with
  | Ok (h, l) => match pops 10 h l with
      | Some (s, h', l') => Forall (fun p => (exists e, fst p = Ok e) /\ snd p = Err IndexError) s /\ l_bytes l' = 0 /\ l_ring l' = [] /\ pop_one h' l' = None
      | None => False end
  | Err _ => False end.
Proof. vm_compute. split; [repeat constructor; eexists; reflexivity|repeat split]. Qed.

(** test_Reserve *)
Example C116_test_reserve :
  (let s := fold_left (fun s i => put s (numbered "key_" 6 i) (numbered "val_" 6 i)) (seq 0 10) (Ok ([], lru_new (Some 1000) (Some 10) None 0)) in
   let next i s := put (make_room s (numbered "key_" 6 i) (numbered "val_" 6 i)) (numbered "key_" 6 i) (numbered "val_" 6 i) in
   put s (numbered "key_" 6 10) (numbered "val_" 6 10) = Err MemoryError /\
   match fold_left (fun s i => next i s) (seq 10 10) s with Ok (_, l) => map snd (l_ring l) = map Z.of_nat (seq 10 10) | Err _ => False end) /\
  (let s := put (put (Ok ([], lru_new (Some 20) (Some 10) None 0)) (lit "12345") (lit "67890")) (lit "12345") (lit "67890") in
   put s (lit "12345") (lit "678901") = Err MemoryError /\
   match put (make_room s (lit "12345") (lit "123456")) (lit "12345") (lit "678901") with Ok (_, l) => ring_len l = 1 | Err _ => False end).
Proof. vm_compute. repeat split. Qed.

(** test_RollOver, test_RollOverWithOffset *)
Definition turn (s : res (heap * lru)) (i : nat) : res (heap * lru) :=
  put (make_room s (numbered "key_" 6 i) (numbered "val_" 6 i)) (numbered "key_" 6 i) (numbered "val_" 6 i).
Definition key_at (s : res (heap * lru)) (i : nat) : str :=
  match s with Ok (_, l) => match lookup l (Z.of_nat i) with Ok (e, _) => kv_key e | Err _ => [] end | Err _ => [] end.
Example C116_test_roll_over :
  let s := fold_left turn (seq 0 96) (Ok ([], lru_new (Some 1280) (Some 64) (Some 64) 0)) in
  map (fun i => key_at s (i mod 64)) (seq 32 64) = map (numbered "key_" 6) (seq 32 64).
Proof. vm_compute. reflexivity. Qed.
Example C116_test_roll_over_offset :
  snd (fold_left (fun '(s, ok) j => let i := (60 + j mod 68)%nat in let s := turn s i in (s, ok && str_eqb (key_at s i) (numbered "key_" 6 i)))
     (seq 0 192) (Ok ([], lru_new (Some 1280) (Some 64) (Some 128) 60), true)) = true.
Proof. vm_compute. reflexivity. Qed.

(** test_RefCntString: a text, a reference to it and one to that; the first and the
    second are let go. *)
Example C116_test_refcnt :
  let s := lit "foobarbaz" in
  let (h1, c1) := ref_new [] (RStr s) in
  let (h2, c2) := ref_new h1 (RRef s c1) in
  let (h3, c3) := ref_new h2 (RRef s c2) in
  let h4 := ref_done h3 c1 in
  let h5 := ref_done h4 c2 in
  map (fun h => (refcnt h c1, ref_len h s c1)) [h1; h2; h3; h4; h5] = [(1, 9); (2, 0); (3, 0); (2, 0); (1, 9)].
Proof. vm_compute. reflexivity. Qed.

(** Two entries that share their key, after an entry with other strings was dropped
    and one was refused. *)
Example C116_case : exists h l, use (Some 20) None None 0 h l /\ l_bytes l = 9 /\
  map (fun p => (kv_key (fst p), kv_val (fst p))) (l_ring l) = [(lit "name", lit "ab"); (lit "name", lit "xyz")].
Proof.
  assert (E : exists h1 e1 l1, kv_new [] (RStr (lit "other")) (RStr (lit "0123456789")) = (h1, e1) /\ kv_kc e1 <> kv_vc e1 /\ store h1 (lru_new (Some 20) None None 0) e1 = Ok l1 /\
    exists h2 e2 h3 l2 gone l3, kv_new h1 (RStr (lit "name")) (RStr (lit "ab")) = (h2, e2) /\ reserve h2 l1 e2 1 = (true, h3, l2, gone) /\ store h3 l2 e2 = Ok l3 /\
    exists a h4 e4 l4, arg l3 (KeyOf 0) = Some a /\ kv_new h3 a (RStr (lit "xyz")) = (h4, e4) /\ kv_kc e4 <> kv_vc e4 /\ store h4 l3 e4 = Ok l4 /\
    exists b h5 e5, arg l4 (ValOf 0) = Some b /\ kv_new h4 b (RStr (lit "a text that is too long")) = (h5, e5) /\ store h5 l4 e5 = Err MemoryError /\
    l_bytes l4 = 9 /\ map (fun p => (kv_key (fst p), kv_val (fst p))) (l_ring l4) = [(lit "name", lit "ab"); (lit "name", lit "xyz")]).
  { do 3 eexists. split; [vm_compute; reflexivity|]. split; [vm_compute; discriminate|]. split; [vm_compute; reflexivity|].
    do 6 eexists. split; [vm_compute; reflexivity|]. split; [vm_compute; reflexivity|]. split; [vm_compute; reflexivity|].
    do 4 eexists. split; [vm_compute; reflexivity|]. split; [vm_compute; reflexivity|]. split; [vm_compute; discriminate|]. split; [vm_compute; reflexivity|].
    do 3 eexists. split; [vm_compute; reflexivity|]. split; [vm_compute; reflexivity|]. split; [vm_compute; reflexivity|]. split; vm_compute; reflexivity. }
  destruct E as (h1 & e1 & l1 & A1 & A2 & A3 & h2 & e2 & h3 & l2 & gone & l3 & B1 & B2 & B3 & a & h4 & e4 & l4 & C1 & C2 & C3 & C4 & b & h5 & e5 & D1 & D2 & D3 & D4 & D5).
  exists (kv_done h5 e5), l4. split; [|split; assumption].
  pose proof (use_store _ _ _ _ _ _ (Text _) (Text _) _ _ _ _ _ (use_start (Some 20) None None 0) eq_refl eq_refl A1 A2 A3) as U1.
  pose proof (use_reserve _ _ _ _ _ _ _ _ _ _ true _ _ _ l3 U1 B1 B2 B3) as U2. cbv iota in U2.
  pose proof (use_store _ _ _ _ _ _ (KeyOf 0) (Text _) _ _ _ _ _ U2 C1 eq_refl C2 C3 C4) as U3.
  exact (use_refused _ _ _ _ _ _ (ValOf 0) (Text _) _ _ _ _ _ U3 D1 eq_refl D2 D3).
Qed.
