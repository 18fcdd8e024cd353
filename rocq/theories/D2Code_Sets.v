(** * Sets of indices. *)
From Coq Require Import String List NArith ZArith Bool Arith Lia Permutation Sorted.
From Verif Require Import PyBase PyStr D2Store_Model D2Code_Model.
Import ListNotations.
Open Scope Z_scope.

Definition zsorted (s : zset) : Prop := StronglySorted Z.lt s.

Lemma zmem_spec x s : reflect (In x s) (zmem x s).
Proof.
  apply iff_reflect. unfold zmem. rewrite existsb_exists. split.
  - intros H. exists x. split; [exact H|apply Z.eqb_refl].
  - intros (y & H & E). apply Z.eqb_eq in E. congruence.
Qed.

Lemma zadd_In x s y : In y (zadd x s) <-> y = x \/ In y s.
Proof.
  induction s as [|z s IH]; cbn; [intuition|]. destruct (x <? z); cbn; [intuition|].
  destruct (Z.eqb_spec x z) as [->|H]; cbn; [intuition|]. rewrite IH. intuition.
Qed.
Lemma zadd_sorted x s : zsorted s -> zsorted (zadd x s).
Proof.
  unfold zsorted. induction s as [|z s IH]; intros H; cbn; [repeat constructor|]. inversion H as [|? ? H1 H2]; subst.
  destruct (Z.ltb_spec x z) as [L|L].
  - constructor; [exact H|]. constructor; [exact L|]. eapply Forall_impl; [|exact H2]. intros; lia.
  - destruct (Z.eqb_spec x z) as [->|N]; [exact H|]. constructor; [now apply IH|]. apply Forall_forall. intros y Hy. apply zadd_In in Hy as [->|Hy]; [lia|].
    rewrite Forall_forall in H2. now apply H2.
Qed.

Lemma zremove_In x s y : In y (zremove x s) <-> In y s /\ y <> x.
Proof. unfold zremove. rewrite filter_In, negb_true_iff, Z.eqb_neq. reflexivity. Qed.
Lemma zremove_sorted x s : zsorted s -> zsorted (zremove x s).
Proof.
  unfold zsorted, zremove. induction s as [|z s IH]; intros H; cbn; [constructor|]. inversion H as [|? ? H1 H2]; subst.
  destruct (negb (z =? x)); [|now apply IH]. constructor; [now apply IH|]. apply Forall_forall. intros y Hy. apply filter_In in Hy as [Hy _].
  rewrite Forall_forall in H2. now apply H2.
Qed.

Lemma ztoggle_In x s y : In y (ztoggle x s) <-> (y <> x /\ In y s) \/ (y = x /\ ~ In x s).
Proof.
  unfold ztoggle. destruct (zmem_spec x s) as [H|H]; [rewrite zremove_In; intuition congruence|]. rewrite zadd_In.
  destruct (Z.eq_dec y x) as [->|E]; intuition.
Qed.
Lemma ztoggle_sorted x s : zsorted s -> zsorted (ztoggle x s).
Proof. unfold ztoggle. destruct (zmem x s); [apply zremove_sorted|apply zadd_sorted]. Qed.

Lemma zsymdiff_sorted s t : zsorted s -> zsorted (zsymdiff s t).
Proof. unfold zsymdiff. revert s. induction t as [|x t IH]; intros s H; cbn; [exact H|]. now apply IH, ztoggle_sorted. Qed.
Lemma zsymdiff_In s t y : NoDup t -> In y (zsymdiff s t) <-> (In y s /\ ~ In y t) \/ (~ In y s /\ In y t).
Proof.
  unfold zsymdiff. revert s. induction t as [|x t IH]; intros s Hn; cbn; [intuition|]. inversion Hn as [|? ? H1 H2]; subst.
  rewrite (IH _ H2), ztoggle_In. destruct (Z.eq_dec y x) as [->|E].
  - destruct (in_dec Z.eq_dec x s); intuition congruence.
  - intuition congruence.
Qed.

Lemma zunion_In s t y : In y (zunion s t) <-> In y s \/ In y t.
Proof.
  unfold zunion. revert s. induction t as [|x t IH]; intros s; cbn; [intuition|]. rewrite IH, zadd_In. intuition.
Qed.
Lemma zunion_sorted s t : zsorted s -> zsorted (zunion s t).
Proof. unfold zunion. revert s. induction t as [|x t IH]; intros s H; cbn; [exact H|]. now apply IH, zadd_sorted. Qed.

Lemma zsorted_NoDup s : zsorted s -> NoDup s.
Proof.
  unfold zsorted. induction s as [|x s IH]; intros H; constructor; inversion H as [|? ? H1 H2]; subst; [|now apply IH].
  intros C. rewrite Forall_forall in H2. specialize (H2 x C). lia.
Qed.

(** A set is determined by its elements. *)
Lemma zsorted_ext s t : zsorted s -> zsorted t -> (forall x, In x s <-> In x t) -> s = t.
Proof.
  unfold zsorted. revert t. induction s as [|x s IH]; intros [|y t] Hs Ht H; [reflexivity| | |].
  - exfalso. apply (proj2 (H y)). now left.
  - exfalso. apply (proj1 (H x)). now left.
  - inversion Hs as [|? ? S1 S2]; inversion Ht as [|? ? T1 T2]; subst. rewrite Forall_forall in S2, T2.
    assert (x = y).
    { destruct (proj1 (H x) (or_introl eq_refl)) as [E|E]; [auto|]. destruct (proj2 (H y) (or_introl eq_refl)) as [E'|E']; [auto|].
      specialize (T2 x E). specialize (S2 y E'). lia. }
    subst y. f_equal. apply IH; auto. intros z. specialize (H z). cbn in H.
    split; intros Hz; [destruct (proj1 H (or_intror Hz)) as [E|E]|destruct (proj2 H (or_intror Hz)) as [E|E]]; auto; subst z; exfalso.
    + specialize (S2 x Hz). lia.
    + specialize (T2 x Hz). lia.
Qed.

(** ** Header groups *)

Lemma gget_gset g id s : gget (gset g id s) id = Some s.
Proof.
  induction g as [|[i t] g IH]; cbn; [now rewrite N.eqb_refl|]. destruct (N.eqb_spec i id) as [->|H]; cbn; [now rewrite N.eqb_refl|].
  destruct (N.eqb_spec i id); [congruence|exact IH].
Qed.
Lemma gget_In g id s : gget g id = Some s -> In (id, s) g.
Proof. induction g as [|[i t] g IH]; cbn; [discriminate|]. destruct (N.eqb_spec i id) as [->|H]; [intros E; injection E as ->; now left|auto]. Qed.
Lemma gset_In g id s p : In p (gset g id s) -> p = (id, s) \/ In p g.
Proof.
  induction g as [|[i t] g IH]; cbn; [intuition|]. destruct (N.eqb_spec i id) as [->|H]; cbn; intuition.
Qed.
Lemma find_or_make_idem g id : find_or_make (find_or_make g id) id = find_or_make g id.
Proof.
  unfold find_or_make at 2 3. destruct (gget g id) eqn:E; unfold find_or_make; [now rewrite E|now rewrite gget_gset].
Qed.
Lemma find_or_make_get g id : exists s, gget (find_or_make g id) id = Some s.
Proof. unfold find_or_make. destruct (gget g id) eqn:E; [eauto|exists []; apply gget_gset]. Qed.
Lemma find_or_make_In g id p : In p (find_or_make g id) -> p = (id, []) \/ In p g.
Proof. unfold find_or_make. destruct (gget g id); [auto|apply gset_In]. Qed.
