(** * Facts about delta2's tables. *)
From Coq Require Import String List NArith ZArith Bool Arith Lia.
From Verif Require Import PyBase PyStr D2Store_Model.
Import ListNotations.
Open Scope Z_scope.
Open Scope py_scope.

Ltac dec :=
  repeat match goal with
  | |- context[?a <? ?b] => destruct (Z.ltb_spec a b)
  | |- context[?a <=? ?b] => destruct (Z.leb_spec a b)
  | |- context[?a =? ?b] => destruct (Z.eqb_spec a b)
  | H : context[?a <? ?b] |- _ => destruct (Z.ltb_spec a b)
  | H : context[?a <=? ?b] |- _ => destruct (Z.leb_spec a b)
  | H : context[?a =? ?b] |- _ => destruct (Z.eqb_spec a b)
  end.

(** ** Sequence numbers *)

(** The number [i] steps after [a] in the cycle O, O+1, ..., M-1. *)
Definition pos (O M a i : Z) : Z := if a + i <? M then a + i else a + i - (M - O).

Record linv (O M : Z) (l : lru) : Prop := {
  li_maxs : l_maxs l = Some M;
  li_off : l_offset l = O;
  li_len : ring_len l <= M - O;
  li_seq : exists a, O <= a < M /\ l_seq l = pos O M a (ring_len l) /\
           forall i x, nth_error (l_ring l) i = Some x -> snd x = pos O M a (Z.of_nat i) }.

Section Lru.
Context (O M : Z) (HO : 0 <= O < M).

Lemma linv_new maxb items : linv O M (lru_new maxb items (Some M) O).
Proof.
  split; try reflexivity; cbn; [unfold ring_len; cbn; lia|]. exists O. split; [lia|]. split; [unfold pos, ring_len; cbn; dec; lia|].
  intros [|i] x H; discriminate.
Qed.

Lemma pop_one_linv h l h' l' e : pop_one h l = Some (h', l', e) -> linv O M l -> linv O M l'.
Proof.
  intros E [H1 H2 H3 (a & Ha & Hs & Hn)]. unfold pop_one in E. destruct (l_ring l) as [|e0 r] eqn:Er; [discriminate|].
  injection E as <- <- <-. unfold ring_len in *. rewrite Er in *. cbn [length] in *.
  split; cbn; auto; [unfold ring_len; cbn; lia|]. exists (pos O M a 1). split; [unfold pos; dec; lia|]. split.
  - unfold ring_len; cbn. rewrite Hs. unfold pos. dec; lia.
  - intros i x Hi. rewrite (Hn (S i) x Hi). assert (i < length r)%nat by (apply nth_error_Some; congruence). unfold pos. dec; lia.
Qed.

Lemma pop_one_ring h l h' l' e : pop_one h l = Some (h', l', e) ->
  l_ring l = e :: l_ring l' /\ l_items l' = l_items l /\ l_maxb l' = l_maxb l /\ l_maxs l' = l_maxs l /\ l_offset l' = l_offset l /\ l_seq l' = l_seq l.
Proof. unfold pop_one. destruct (l_ring l) eqn:E; [discriminate|]. intros H. injection H as <- <- <-. cbn. repeat split; auto. Qed.

Lemma pop_while_rel (R : heap * lru -> heap * lru -> Prop) cond :
  (forall x, R x x) -> (forall x y z, R x y -> R y z -> R x z) ->
  (forall h l h' l' e, pop_one h l = Some (h', l', e) -> R (h, l) (h', l')) ->
  forall fuel h l p ok h' l' p', pop_while cond fuel h l p = (ok, h', l', p') -> R (h, l) (h', l').
Proof.
  intros Hr Ht Hp. induction fuel as [|f IH]; intros h l p ok h' l' p' E; cbn [pop_while] in E; destruct (cond h l).
  - destruct (pop_one h l) as [[[h1 l1] e]|] eqn:Ep; injection E as <- <- <- <-; [now apply Hp in Ep|apply Hr].
  - injection E as <- <- <- <-. apply Hr.
  - destruct (pop_one h l) as [[[h1 l1] e]|] eqn:Ep; [|injection E as <- <- <- <-; apply Hr].
    apply Hp in Ep. apply IH in E. eauto.
  - injection E as <- <- <- <-. apply Hr.
Qed.

Lemma reserve_rel (R : heap * lru -> heap * lru -> Prop) :
  (forall x, R x x) -> (forall x y z, R x y -> R y z -> R x z) ->
  (forall h l h' l' e, pop_one h l = Some (h', l', e) -> R (h, l) (h', l')) ->
  forall h l e n ok h' l' p, reserve h l e n = (ok, h', l', p) -> R (h, l) (h', l').
Proof.
  intros Hr Ht Hp h l e n ok h' l' p E. unfold reserve in E. destruct (is_zero _ || is_zero _); [injection E as <- <- <- <-; apply Hr|].
  destruct (match l_items l with Some m => _ | None => _ end) as [[[ok1 h1] l1] p1] eqn:E1.
  assert (R1 : R (h, l) (h1, l1)).
  { destruct (l_items l); [now apply pop_while_rel with (R := R) in E1|]. injection E1 as <- <- <- <-. apply Hr. }
  destruct ok1; [|injection E as <- <- <- <-; exact R1].
  destruct (l_maxb l1); [apply pop_while_rel with (R := R) in E; eauto|injection E as <- <- <- <-; exact R1].
Qed.

Lemma reserve_linv h l e n ok h' l' p : reserve h l e n = (ok, h', l', p) -> linv O M l -> linv O M l'.
Proof.
  intros E. refine (reserve_rel (fun x y => linv O M (snd x) -> linv O M (snd y)) _ _ _ _ _ _ _ _ _ _ _ E); auto.
  cbn. intros. eapply pop_one_linv; eauto.
Qed.

Lemma store_linv h l e l' : store h l e = Ok l' -> ring_len l < M - O -> linv O M l -> linv O M l'.
Proof.
  intros E Hl [H1 H2 H3 (a & Ha & Hs & Hn)]. unfold store in E. cbv zeta in E.
  destruct (match l_maxb l with Some m => _ | None => _ end); [discriminate|].
  destruct (match l_items l with Some m => _ | None => _ end); [discriminate|]. injection E as <-. rewrite H1, H2.
  unfold ring_len in *. split; cbn; auto; [unfold ring_len; cbn; rewrite app_length; cbn; lia|].
  exists a. split; [lia|]. split.
  - unfold ring_len; cbn. rewrite app_length; cbn [length]. rewrite Hs. unfold pos. dec; lia.
  - intros i x Hi. destruct (Nat.ltb_spec i (length (l_ring l))) as [L|L].
    + rewrite nth_error_app1 in Hi by exact L. now apply Hn.
    + rewrite nth_error_app2 in Hi by exact L. destruct (i - length (l_ring l))%nat as [|j] eqn:Ej; [|destruct j; discriminate].
      cbn in Hi. injection Hi as <-. cbn. rewrite Hs. f_equal. lia.
Qed.

Lemma linv_range l i x : linv O M l -> nth_error (l_ring l) i = Some x -> O <= snd x < M.
Proof.
  intros [_ _ H3 (a & Ha & Hs & Hn)] H. rewrite (Hn i x H). assert (i < length (l_ring l))%nat by (apply nth_error_Some; congruence).
  unfold ring_len, pos in *. dec; lia.
Qed.

Lemma linv_seq_range l : linv O M l -> O <= l_seq l < M.
Proof. intros [_ _ H3 (a & Ha & -> & Hn)]. unfold ring_len, pos in *. dec; lia. Qed.

Lemma linv_inj l i j x y : linv O M l -> nth_error (l_ring l) i = Some x -> nth_error (l_ring l) j = Some y -> snd x = snd y -> i = j.
Proof.
  intros [_ _ H3 (a & Ha & Hs & Hn)] Hi Hj E. rewrite (Hn i x Hi), (Hn j y Hj) in E.
  assert (i < length (l_ring l))%nat by (apply nth_error_Some; congruence).
  assert (j < length (l_ring l))%nat by (apply nth_error_Some; congruence). unfold ring_len, pos in *. dec; lia.
Qed.

Lemma linv_nodup l : linv O M l -> NoDup (map snd (l_ring l)).
Proof.
  intros H. apply NoDup_nth_error. intros i j Hi E. rewrite map_length in Hi.
  destruct (nth_error (l_ring l) i) as [x|] eqn:Ei; [|apply nth_error_None in Ei; exfalso; exact (Nat.lt_irrefl _ (Nat.lt_le_trans _ _ _ Hi Ei))].
  rewrite !nth_error_map, Ei in E. destruct (nth_error (l_ring l) j) as [y|] eqn:Ej; cbn in E; [|discriminate].
  injection E as E. eapply linv_inj; eauto.
Qed.

Lemma dq_get_nth {A} (r : list A) i x : nth_error r i = Some x -> dq_get r (Z.of_nat i) = Ok x.
Proof.
  intros H. assert (i < length r)%nat by (apply nth_error_Some; congruence). unfold dq_get. cbv zeta.
  destruct (Z.ltb_spec (Z.of_nat i) 0); [lia|]. destruct (Z.leb_spec 0 (Z.of_nat i)); [|lia].
  destruct (Z.ltb_spec (Z.of_nat i) (Z.of_nat (length r))); [|lia]. cbn [andb]. now rewrite Nat2Z.id, H.
Qed.

Lemma dq_get_head {A} (x : A) r : dq_get (x :: r) 0 = Ok x.
Proof. exact (dq_get_nth (x :: r) 0 x eq_refl). Qed.

Lemma dq_get_right {A} (r : list A) i x : nth_error r i = Some x -> dq_get r (Z.of_nat i - Z.of_nat (length r)) = Ok x.
Proof.
  intros H. assert (i < length r)%nat by (apply nth_error_Some; congruence). unfold dq_get. cbv zeta.
  destruct (Z.ltb_spec (Z.of_nat i - Z.of_nat (length r)) 0); [|lia].
  replace (Z.of_nat i - Z.of_nat (length r) + Z.of_nat (length r)) with (Z.of_nat i) by lia.
  destruct (Z.leb_spec 0 (Z.of_nat i)); [|lia].
  destruct (Z.ltb_spec (Z.of_nat i) (Z.of_nat (length r))); [|lia]. cbn [andb]. now rewrite Nat2Z.id, H.
Qed.

Lemma dq_get_inv {A} (r : list A) i x : 0 <= i -> dq_get r i = Ok x -> nth_error r (Z.to_nat i) = Some x /\ i < Z.of_nat (length r).
Proof.
  intros H. unfold dq_get. cbv zeta. destruct (Z.ltb_spec i 0); [lia|]. destruct (Z.leb_spec 0 i); [|lia]. cbn [andb].
  destruct (Z.ltb_spec i (Z.of_nat (length r))); [|discriminate]. destruct (nth_error r (Z.to_nat i)); [|discriminate]. intros E. injection E as <-. auto.
Qed.

Lemma dq_get_err {A} (r : list A) i e : dq_get r i = Err e -> e = IndexError.
Proof. unfold dq_get. cbv zeta. destruct (_ && _); [destruct (nth_error _ _)|]; congruence. Qed.

Lemma linv_idx l i x : linv O M l -> nth_error (l_ring l) i = Some x -> idx_from_left l (snd x) = Ok (Z.of_nat i).
Proof.
  intros Hl Hi. pose proof (linv_range l i x Hl Hi) as Hr. destruct Hl as [H1 H2 H3 (a & Ha & Hs & Hn)].
  assert (Li : (i < length (l_ring l))%nat) by (apply nth_error_Some; congruence).
  unfold idx_from_left. destruct (l_ring l) as [|x0 r] eqn:Er; [cbn in Li; lia|].
  rewrite (dq_get_head x0 r). destruct x0 as [e0 q0]. cbn [bind]. rewrite H2, H1.
  pose proof (Hn 0%nat (e0, q0) eq_refl) as Hq. pose proof (Hn i x Hi) as Hx. cbn [snd] in Hq. unfold ring_len in H3. rewrite Er in H3.
  unfold pos in Hq, Hx. destruct (Z.ltb_spec (snd x) O); [lia|]. destruct (Z.eqb_spec M 0); [lia|].
  destruct (Z.ltb_spec (snd x) q0); f_equal; dec; lia.
Qed.

Lemma linv_lookup l i x : linv O M l -> nth_error (l_ring l) i = Some x -> lookup l (snd x) = Ok x.
Proof.
  intros Hl Hi. unfold lookup. rewrite (linv_idx l i x Hl Hi). cbn [bind]. rewrite (dq_get_nth _ _ _ Hi). cbn [bind].
  now rewrite Z.eqb_refl.
Qed.

Lemma idx_from_left_err l q e : idx_from_left l q = Err e -> e = IndexError.
Proof.
  unfold idx_from_left. destruct (dq_get (l_ring l) 0) as [[e0 q0]|e0] eqn:E0; cbn [bind]; [|intros; apply dq_get_err in E0; congruence].
  destruct (q <? l_offset l); [congruence|]. destruct (q <? q0); [|discriminate]. destruct (l_maxs l) as [m|]; [|congruence].
  destruct (m =? 0); congruence.
Qed.

(** A number no live entry has is not found: an index beyond the ring. *)
Lemma linv_lookup_dead l q : linv O M l -> ~ In q (map snd (l_ring l)) -> q < M -> lookup l q = Err IndexError.
Proof.
  intros Hl Hq HM. unfold lookup. destruct (idx_from_left l q) as [p|e] eqn:Ep; cbn [bind]; [|apply idx_from_left_err in Ep; congruence].
  destruct (dq_get (l_ring l) p) as [x|e] eqn:Ex; cbn [bind]; [|apply dq_get_err in Ex; congruence]. exfalso.
  destruct Hl as [H1 H2 H3 (a & Ha & Hs & Hn)]. unfold idx_from_left in Ep. rewrite H1, H2 in Ep.
  destruct (l_ring l) as [|x0 r] eqn:Er; [discriminate|]. rewrite (dq_get_head x0 r) in Ep. destruct x0 as [e0 q0]. cbn [bind] in Ep.
  pose proof (Hn 0%nat (e0, q0) eq_refl) as Hq0. cbn [snd] in Hq0. unfold pos in Hq0.
  destruct (Z.ltb_spec q O) as [|L]; [discriminate|]. destruct (Z.eqb_spec M 0); [lia|].
  assert (Hp : 0 <= p). { destruct (Z.ltb_spec q q0); injection Ep as <-; dec; lia. }
  destruct (dq_get_inv _ _ _ Hp Ex) as [Hx Hlt]. apply Hq. apply in_map_iff. exists x. split; [|eapply nth_error_In; eauto].
  rewrite (Hn _ _ Hx). unfold ring_len in H3. rewrite Er in H3. rewrite Z2Nat.id by lia. unfold pos.
  destruct (Z.ltb_spec q q0); injection Ep as <-; dec; lia.
Qed.

End Lru.

(** Reserving only drops entries at the left. *)
Lemma reserve_suffix h l e n ok h' l' p : reserve h l e n = (ok, h', l', p) ->
  (exists gone, l_ring l = gone ++ l_ring l') /\ l_items l' = l_items l /\ l_maxb l' = l_maxb l /\ l_maxs l' = l_maxs l /\
  l_offset l' = l_offset l /\ l_seq l' = l_seq l.
Proof.
  intros E. apply (reserve_rel (fun x y => (exists gone, l_ring (snd x) = gone ++ l_ring (snd y)) /\ l_items (snd y) = l_items (snd x) /\
    l_maxb (snd y) = l_maxb (snd x) /\ l_maxs (snd y) = l_maxs (snd x) /\ l_offset (snd y) = l_offset (snd x) /\ l_seq (snd y) = l_seq (snd x))) in E; [exact E| | |].
  - intros x. repeat split. now exists [].
  - intros x y z ((g1 & E1) & A1 & A2 & A3 & A4 & A5) ((g2 & E2) & B1 & B2 & B3 & B4 & B5). repeat split; try congruence.
    exists (g1 ++ g2). now rewrite E1, E2, app_assoc.
  - intros h1 l1 h2 l2 e1 Ep. cbn [snd]. apply pop_one_ring in Ep as (E1 & H). destruct H as (?&?&?&?&?). repeat split; auto. now exists [e1].
Qed.

(** The popped entries are the dropped ones, in order. *)
Lemma pop_while_popped cond : forall fuel h l p ok h' l' p', (length (l_ring l) <= fuel)%nat ->
  pop_while cond fuel h l p = (ok, h', l', p') -> exists gone, p' = p ++ gone /\ l_ring l = gone ++ l_ring l' /\
  (ok = true -> cond h' l' = false) /\ (ok = false -> l_ring l' = []).
Proof.
  induction fuel as [|f IH]; intros h l p ok h' l' p' Hf E; cbn [pop_while] in E; destruct (cond h l) eqn:Ec.
  - destruct (pop_one h l) as [[[h1 l1] e]|] eqn:Ep.
    + apply pop_one_ring in Ep as (Er & _). rewrite Er in Hf. cbn in Hf. lia.
    + injection E as <- <- <- <-. exists []. rewrite app_nil_r. unfold pop_one in Ep. destruct (l_ring l); [|discriminate].
      repeat split; auto. discriminate.
  - injection E as <- <- <- <-. exists []. rewrite app_nil_r. repeat split; auto. discriminate.
  - destruct (pop_one h l) as [[[h1 l1] e]|] eqn:Ep.
    + apply pop_one_ring in Ep as (Er & _). rewrite Er in Hf. cbn in Hf. apply IH in E; [|lia].
      destruct E as (g & -> & E1 & E2 & E3). exists (e :: g). rewrite <- app_assoc. split; [reflexivity|]. rewrite Er, E1. auto.
    + injection E as <- <- <- <-. exists []. rewrite app_nil_r. unfold pop_one in Ep. destruct (l_ring l); [|discriminate].
      repeat split; auto. discriminate.
  - injection E as <- <- <- <-. exists []. rewrite app_nil_r. repeat split; auto. discriminate.
Qed.

Lemma reserve_popped h l e n ok h' l' p : reserve h l e n = (ok, h', l', p) ->
  l_ring l = p ++ l_ring l' /\
  (ok = true -> (forall m, l_items l = Some m -> m <> 0 /\ ring_len l' + n <= m) /\
                (forall m, l_maxb l = Some m -> m <> 0 /\ l_bytes l' + kv_size h' e <= m)).
Proof.
  intros E. pose proof (reserve_suffix _ _ _ _ _ _ _ _ E) as (_ & Ei & Eb & _). unfold reserve in E.
  destruct (is_zero (l_items l)) eqn:Z1; [injection E as <- <- <- <-; split; [reflexivity|discriminate]|].
  destruct (is_zero (l_maxb l)) eqn:Z2; [injection E as <- <- <- <-; split; [reflexivity|discriminate]|]. cbn [orb] in E.
  destruct (match l_items l with Some m => _ | None => _ end) as [[[ok1 h1] l1] p1] eqn:E1.
  assert (R1 : l_ring l = p1 ++ l_ring l1 /\ l_maxb l1 = l_maxb l /\ (ok1 = true -> forall m, l_items l = Some m -> ring_len l1 + n <= m)).
  { destruct (l_items l) as [m|] eqn:El.
    - pose proof E1 as E1'. apply pop_while_popped in E1; [|lia]. destruct E1 as (g & -> & E1 & E2 & _). split; [exact E1|]. split.
      + apply (pop_while_rel (fun x y => l_maxb (snd y) = l_maxb (snd x))) in E1'; auto; [intros; congruence|].
        intros. cbn. now apply pop_one_ring in H as (_ & _ & ? & _).
      + intros -> m' Hm. injection Hm as <-. specialize (E2 eq_refl). apply Z.ltb_ge in E2. exact E2.
    - injection E1 as <- <- <- <-. repeat split; auto. discriminate. }
  destruct R1 as (R1 & R2 & R3).
  assert (Nz : forall m, (l_items l = Some m \/ l_maxb l = Some m) -> m <> 0).
  { intros m [H|H] ->; rewrite H in *; discriminate. }
  destruct ok1; [|injection E as <- <- <- <-; split; [exact R1|discriminate]].
  rewrite R2 in E. destruct (l_maxb l) as [m|] eqn:Em.
  - pose proof E as E'. apply pop_while_popped in E; [|lia]. destruct E as (g & -> & E & E2 & _). split; [now rewrite R1, E, app_assoc|].
    intros ->. specialize (E2 eq_refl). apply Z.ltb_ge in E2. split.
    + intros m' Hm. split; [apply Nz; auto|]. specialize (R3 eq_refl m' Hm). unfold ring_len in *. rewrite E, app_length in R3. lia.
    + intros m' Hm. injection Hm as <-. split; [apply Nz; auto|exact E2].
  - injection E as <- <- <- <-. split; [exact R1|]. intros _. split; [|discriminate]. intros m Hm. split; [apply Nz; auto|]. now apply R3.
Qed.

(** After a successful reservation of one place, storing works. *)
Lemma reserve_store h l e ok h' l' p : reserve h l e 1 = (ok, h', l', p) -> ok = true -> exists l2, store h' l' e = Ok l2.
Proof.
  intros E Hok. pose proof (reserve_suffix _ _ _ _ _ _ _ _ E) as (_ & Ei & Eb & _). apply reserve_popped in E as (_ & E).
  destruct (E Hok) as [A B]. unfold store. cbv zeta. rewrite Ei, Eb.
  destruct (l_maxb l) as [m|]; [destruct (B m eq_refl) as [_ B']; destruct (Z.ltb_spec m (l_bytes l' + kv_size h' e)); [lia|]|].
  all: destruct (l_items l) as [m'|]; [destruct (A m' eq_refl) as [A1 A2]; destruct (Z.ltb_spec m' (ring_len l' + 1)); [lia|]; rewrite andb_false_r|]; eauto.
Qed.

Lemma store_ring h l e l' : store h l e = Ok l' -> l_ring l' = l_ring l ++ [(e, l_seq l)] /\ l_items l' = l_items l /\ l_maxb l' = l_maxb l /\
  l_maxs l' = l_maxs l /\ l_offset l' = l_offset l /\ l_bytes l' = l_bytes l + kv_size h e.
Proof.
  unfold store. cbv zeta. destruct (match l_maxb l with Some m => _ | None => _ end); [discriminate|].
  destruct (match l_items l with Some m => _ | None => _ end); [discriminate|]. intros E. injection E as <-. cbn. auto 10.
Qed.

Lemma dq_last {A} (r : list A) x : dq_get (r ++ [x]) (-1) = Ok x.
Proof.
  pose proof (dq_get_right (r ++ [x]) (length r) x) as H. rewrite app_length in H. cbn [length] in H.
  replace (Z.of_nat (length r) - Z.of_nat (length r + 1)) with (-1) in H by lia. apply H.
  rewrite nth_error_app2, Nat.sub_diag by lia. reflexivity.
Qed.

(** InsertVal never raises. *)
Lemma insert_val_ok s e : exists h' l' n p, insert_val s e = Ok (mk_storage h' (s_static s) l', n, p) /\
  match n with
  | None => exists ok, reserve (s_heap s) (s_lru s) e 1 = (ok, h', l', p) /\ ok = false
  | Some q => exists l1, reserve (s_heap s) (s_lru s) e 1 = (true, h', l1, p) /\ store h' l1 e = Ok l' /\ q = l_seq l1 /\ l_ring l' = l_ring l1 ++ [(e, q)]
  end.
Proof.
  unfold insert_val. destruct (reserve (s_heap s) (s_lru s) e 1) as [[[ok h1] l1] p] eqn:E. destruct ok.
  - destruct (reserve_store _ _ _ _ _ _ _ E eq_refl) as (l2 & E2). rewrite E2. cbn [bind].
    pose proof (store_ring _ _ _ _ E2) as (Er & _). rewrite Er, dq_last. cbn [bind snd].
    exists h1, l2, (Some (l_seq l1)), p. split; [reflexivity|]. exists l1. auto.
  - exists h1, l1, None, p. split; [reflexivity|]. eauto.
Qed.
