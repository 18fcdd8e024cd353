(** * CPython's dictionary order of small integers is a permutation of the keys. *)
From Coq Require Import List NArith Bool Arith Lia Permutation ZifyN ZifyNat.
From Verif Require Import PyBase D2Huff_Model.
Import ListNotations.
Open Scope nat_scope.

Definition sizes : list nat := [8; 32; 128]%nat.

(** The slots visited. *)
Fixpoint visited (n m i perturb : nat) : list nat :=
  match n with
  | O => []
  | S n' => i :: visited n' m ((5 * i + perturb + 1) mod m) (perturb / 32)
  end.

(** Without perturbation slot 0 is reached from everywhere, and everything from
    slot 0. *)
Fixpoint orbit (n : nat) (m i : N) : list N :=
  match n with
  | O => []
  | S n' => i :: orbit n' m (N.modulo (5 * i + 1)%N m)
  end.
Lemma orbit_visited n (m : nat) : m <> 0 -> forall i : nat, orbit n (N.of_nat m) (N.of_nat i) = map N.of_nat (visited n m i 0).
Proof.
  intros Hm. induction n as [|n IH]; intros i; [reflexivity|]. cbn [orbit visited map]. f_equal. change (0 / 32) with 0. rewrite <- IH. f_equal.
  rewrite Nat.add_0_r, Nat2N.inj_mod, Nat2N.inj_add, Nat2N.inj_mul. reflexivity.
Qed.

Definition upto (m : nat) : list N := map N.of_nat (seq 0 m).
Definition covers (m : nat) : bool :=
  forallb (fun i => existsb (N.eqb 0%N) (orbit m (N.of_nat m) i)) (upto m) &&
  (let o := orbit m (N.of_nat m) 0%N in forallb (fun s => existsb (N.eqb s) o) (upto m)).
Lemma covers_all : forallb covers sizes = true.
Proof. vm_compute. reflexivity. Qed.

Lemma sizes_pos m : In m sizes -> 8 <= m.
Proof. intros H. cbn in H. repeat (destruct H as [H|H]; [lia|]). destruct H. Qed.

Lemma covers_spec m i : In m sizes -> i < m -> In 0 (visited m m i 0) /\ In i (visited m m 0 0).
Proof.
  intros Hm Hi. pose proof covers_all as C. rewrite forallb_forall in C. specialize (C m Hm). unfold covers in C.
  apply andb_true_iff in C. destruct C as [C1 C2]. cbv zeta in C2. rewrite forallb_forall in C1, C2. pose proof (sizes_pos m Hm).
  assert (Hin : In (N.of_nat i) (upto m)) by (apply in_map, in_seq; lia). specialize (C1 _ Hin). specialize (C2 _ Hin).
  rewrite orbit_visited in C1 by lia. change 0%N with (N.of_nat 0) in C2. rewrite orbit_visited in C2 by lia.
  apply existsb_exists in C1. destruct C1 as (x & Hx & E). apply N.eqb_eq in E. subst x. apply in_map_iff in Hx. destruct Hx as (x & E & Hx).
  apply existsb_exists in C2. destruct C2 as (y & Hy & E2). apply N.eqb_eq in E2. subst y. apply in_map_iff in Hy. destruct Hy as (y & E2 & Hy).
  assert (x = 0) by lia. assert (y = i) by lia. now subst.
Qed.

Lemma visited_app a b m i p : exists j q, visited (a + b) m i p = visited a m i p ++ visited b m j q /\ (p < 32 -> a <> 0 -> q = 0) /\ (p = 0 -> q = 0) /\ (a = 0 -> j = i).
Proof.
  revert i p. induction a as [|a IH]; intros i p; [exists i, p; repeat split; lia|]. cbn [visited Nat.add app].
  destruct (IH ((5 * i + p + 1) mod m) (p / 32)) as (j & q & -> & H1 & H2 & H3). exists j, q. repeat split; try lia.
Qed.

Lemma visited_from m i n : In 0 (visited n m i 0) -> exists a, a < n /\ forall k, visited (a + k) m i 0 = visited a m i 0 ++ visited k m 0 0.
Proof.
  revert i. induction n as [|n IH]; intros i H; [destruct H|]. cbn [visited] in H. destruct H as [->|H].
  - exists 0. split; [lia|]. reflexivity.
  - change (0 / 32) with 0 in H. destruct (IH _ H) as (a & Ha & E). exists (S a). split; [lia|]. intros k. cbn [visited Nat.add app]. change (0 / 32) with 0. now rewrite E.
Qed.

Lemma visited_all m key s : In m sizes -> key < 1024 -> s < m -> In s (visited (2 + (m + m)) m (key mod m) key).
Proof.
  intros Hm Hk Hs. pose proof (sizes_pos m Hm) as H8. change (2 + (m + m)) with (S (S (m + m))). cbn [visited]. right. right.
  set (i := (_ mod m)). assert (Hi : i < m) by (apply Nat.mod_upper_bound; lia).
  replace (key / 32 / 32) with 0 by (rewrite Nat.div_div by lia; symmetry; apply Nat.div_small; lia).
  destruct (covers_spec m i Hm Hi) as [C1 _]. destruct (covers_spec m s Hm Hs) as [_ C2].
  destruct (visited_from m i m C1) as (a & Ha & E). replace (m + m) with (a + (m + (m - a))) by lia. rewrite E. apply in_or_app. right.
  destruct (visited_app m (m - a) m 0 0) as (j & q & -> & _). apply in_or_app. now left.
Qed.

Lemma visited_more n m i p k s : In s (visited n m i p) -> In s (visited (n + k) m i p).
Proof.
  revert i p. induction n as [|n IH]; intros i p H; [destruct H|]. cbn [visited Nat.add] in *. destruct H as [H|H]; [now left|right; now apply IH].
Qed.

Definition stops (tab : slots) (key slot : nat) : Prop := nth slot tab None = None \/ nth slot tab None = Some key.

Lemma probe_ok tab key : 0 < length tab -> forall fuel i p,
  (exists s, In s (visited (S fuel) (length tab) (i mod length tab) p) /\ stops tab key s) ->
  stops tab key (probe fuel tab i p key) /\ probe fuel tab i p key < length tab.
Proof.
  intros Hl. induction fuel as [|f IH]; intros i p (s & Hs & Hst).
  - cbn [visited] in Hs. destruct Hs as [<-|[]]. cbn [probe]. split; [|destruct (nth _ tab None) as [k|]; [destruct (k =? key)|]; apply Nat.mod_upper_bound; lia].
    destruct (nth (i mod length tab) tab None) as [k|] eqn:E; [|exact Hst]. destruct (k =? key); exact Hst.
  - cbn [probe]. destruct (nth (i mod length tab) tab None) as [k|] eqn:E.
    + destruct (Nat.eqb_spec k key) as [->|Ne]; [split; [now right|apply Nat.mod_upper_bound; lia]|].
      apply IH. exists s. split; [|exact Hst]. cbn [visited] in Hs. destruct Hs as [<-|Hs].
      * exfalso. destruct Hst as [C|C]; rewrite E in C; congruence.
      * replace ((5 * i + p + 1) mod length tab) with ((5 * (i mod length tab) + p + 1) mod length tab); [exact Hs|].
        rewrite <- !Nat.add_assoc, Nat.add_mod, Nat.mul_mod_idemp_r, <- Nat.add_mod by lia. reflexivity.
    + split; [now left|apply Nat.mod_upper_bound; lia].
Qed.

Lemma cat_len (tab : slots) : length (catOptions tab) <= length tab.
Proof. induction tab as [|[x|] tab IH]; cbn [catOptions length]; lia. Qed.

Lemma free_slot (tab : slots) : length (catOptions tab) < length tab -> exists s, s < length tab /\ nth s tab None = None.
Proof.
  induction tab as [|[x|] tab IH]; cbn [catOptions length]; intros H; [lia| |exists 0; split; [lia|reflexivity]].
  destruct IH as (s & Hs & E); [lia|]. exists (S s). split; [lia|exact E].
Qed.

Lemma cat_in (tab : slots) s key : nth s tab None = Some key -> In key (catOptions tab).
Proof.
  revert s. induction tab as [|[x|] tab IH]; intros [|s] H; cbn [nth catOptions] in *; try discriminate.
  - injection H as ->. now left.
  - right. eapply IH, H.
  - eapply IH, H.
Qed.

Lemma cat_update (tab : slots) s key : s < length tab -> nth s tab None = None ->
  Permutation (catOptions (update_nth s (fun _ => Some key) tab)) (key :: catOptions tab).
Proof.
  revert s. induction tab as [|[x|] tab IH]; intros [|s] Hs H; cbn [length] in Hs; try lia; cbn [nth] in H; try discriminate; cbn [update_nth catOptions].
  - etransitivity; [apply perm_skip, IH; [lia|exact H]|apply perm_swap].
  - reflexivity.
  - apply IH; [lia|exact H].
Qed.

Lemma update_length {A} (f : A -> A) (l : list A) n : length (update_nth n f l) = length l.
Proof. revert n. induction l as [|x l IH]; intros [|n]; cbn [update_nth length]; auto. Qed.

Lemma put_ok tab key : In (length tab) sizes -> key < 64 -> length (catOptions tab) < length tab -> ~ In key (catOptions tab) ->
  length (put tab key) = length tab /\ Permutation (catOptions (put tab key)) (key :: catOptions tab).
Proof.
  intros Hm Hk Hf Hn. unfold put. rewrite update_length. split; [reflexivity|].
  destruct (free_slot tab Hf) as (s & Hs & Es).
  pose proof (sizes_pos _ Hm) as H8.
  destruct (probe_ok tab key ltac:(lia) (8 * length tab) key key) as [Hst Hlt].
  - exists s. split; [|now left].
    replace (S (8 * length tab)) with ((2 + (length tab + length tab)) + (S (8 * length tab) - (2 + (length tab + length tab)))) by lia.
    apply visited_more, visited_all; try assumption; lia.
  - apply cat_update; [exact Hlt|]. destruct Hst as [E|E]; [exact E|]. exfalso. apply Hn. eapply cat_in, E.
Qed.

Lemma puts_ok keys : forall tab, In (length tab) sizes -> Forall (fun k => k < 64) keys ->
  length (catOptions tab) + length keys < length tab -> NoDup (keys ++ catOptions tab) ->
  length (fold_left put keys tab) = length tab /\ Permutation (catOptions (fold_left put keys tab)) (keys ++ catOptions tab).
Proof.
  induction keys as [|k keys IH]; intros tab Hm Hk Hl Hn; [now split|]. cbn [fold_left length app] in *. inversion Hk; subst. inversion Hn; subst.
  destruct (put_ok tab k) as [L P]; try assumption; try lia; [intros C; apply H3; apply in_or_app; now right|].
  assert (LP : length (catOptions (put tab k)) = S (length (catOptions tab))) by (rewrite (Permutation_length P); reflexivity).
  destruct (IH (put tab k)) as [L' P']; try (rewrite L); try assumption; try lia.
  - eapply Permutation_NoDup; [|exact Hn]. transitivity (keys ++ k :: catOptions tab); [apply Permutation_middle|]. apply Permutation_app_head. now symmetry.
  - split; [congruence|]. etransitivity; [exact P'|]. etransitivity; [apply Permutation_app_head, P|]. symmetry. apply Permutation_middle.
Qed.

Lemma cat_repeat n : catOptions (repeat (@None nat) n) = [].
Proof. induction n; [reflexivity|assumption]. Qed.

Lemma growth_ok u n : In n sizes -> 3 * (u - 1) < 2 * n -> 2 * n <= 3 * u -> u <= 60 ->
  In (dict_size u 8 (4 * u)) sizes /\ 3 * u < 2 * dict_size u 8 (4 * u).
Proof.
  intros H H1 H2 H3. assert (u = 6 \/ u = 22) as [->| ->] by (cbn in H; repeat (destruct H as [H|H]; [lia|]); destruct H).
  - change (dict_size 6 8 (4 * 6)) with 32. split; [cbn; tauto|lia].
  - assert (E : dict_size 22 8 (4 * 22) = 128) by (vm_compute; reflexivity). rewrite E. split; [cbn; tauto|lia].
Qed.

Definition dict_inv (tab : slots) (keys : list nat) : Prop :=
  In (length tab) sizes /\ Permutation (catOptions tab) keys /\ 3 * length keys < 2 * length tab.

Lemma insert_key_ok tab keys key : dict_inv tab keys -> NoDup (key :: keys) -> Forall (fun k => k < 64) (key :: keys) -> S (length keys) <= 60 ->
  dict_inv (insert_key tab key) (key :: keys).
Proof.
  intros (Hm & HP & Hl) Hn Hk H60. inversion Hn; subst. inversion Hk; subst.
  assert (Hc : length (catOptions tab) = length keys) by now apply Permutation_length.
  destruct (put_ok tab key) as [L P]; try assumption; try lia; [intros C; apply H1; eapply Permutation_in; eassumption|].
  assert (P2 : Permutation (catOptions (put tab key)) (key :: keys)) by (rewrite P; now constructor).
  assert (Lu : length (catOptions (put tab key)) = S (length keys)) by (rewrite (Permutation_length P2); reflexivity).
  unfold insert_key. cbv zeta. rewrite L, Lu. destruct (Nat.leb_spec (2 * length tab) (3 * S (length keys))) as [C|C].
  - destruct (growth_ok (S (length keys)) (length tab) Hm ltac:(lia) C H60) as [G1 G2]. set (m := dict_size _ _ _) in *.
    assert (Er : length (repeat (@None nat) m) = m) by apply repeat_length.
    destruct (puts_ok (catOptions (put tab key)) (repeat None m)) as [L' P'].
    + now rewrite Er.
    + eapply Permutation_Forall; [symmetry; exact P2|exact Hk].
    + rewrite cat_repeat, Er, Lu. cbn [length]. lia.
    + rewrite cat_repeat, app_nil_r. eapply Permutation_NoDup; [symmetry; exact P2|exact Hn].
    + rewrite cat_repeat, app_nil_r in P'. split; [rewrite L', Er; exact G1|]. split; [etransitivity; eassumption|]. rewrite L', Er. exact G2.
  - split; [rewrite L; exact Hm|]. split; [exact P2|]. rewrite L. exact C.
Qed.

Theorem int_dict_order_perm keys : NoDup keys -> Forall (fun k => k < 64) keys -> length keys <= 60 -> Permutation (int_dict_order keys) keys.
Proof.
  intros Hn Hk Hl. unfold int_dict_order.
  assert (G : forall l tab done, dict_inv tab done -> NoDup (l ++ done) -> Forall (fun k => k < 64) (l ++ done) -> length l + length done <= 60 ->
    Permutation (catOptions (fold_left insert_key l tab)) (l ++ done)).
  { clear. induction l as [|k l IH]; intros tab done Hi Hn Hk Hl; [apply Hi|]. cbn [fold_left length app] in *.
    assert (Q : Permutation (k :: l ++ done) (l ++ k :: done)) by apply Permutation_middle.
    assert (Hn' : NoDup (l ++ k :: done)) by (eapply Permutation_NoDup; eassumption).
    assert (Hk' : Forall (fun k => k < 64) (l ++ k :: done)) by (eapply Permutation_Forall; eassumption).
    etransitivity; [apply (IH (insert_key tab k) (k :: done))|now symmetry].
    - apply insert_key_ok; [exact Hi| | |lia].
      + clear - Hn'. induction l as [|x l IHl]; [exact Hn'|]. apply IHl. now inversion Hn'.
      + apply Forall_app in Hk'. apply Hk'.
    - exact Hn'.
    - exact Hk'.
    - cbn [length]. lia. }
  rewrite <- (app_nil_r keys) at 2. apply G; rewrite ?app_nil_r; try assumption; [|cbn; lia].
  split; [now left|]. split; [constructor|cbn; lia].
Qed.
