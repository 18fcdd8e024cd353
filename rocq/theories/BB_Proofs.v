(** * Bit buckets are bit queues: proofs. *)
From Coq Require Import List NArith Bool Arith Lia.
From Verif Require Import PyBase NBits Bits BB_Model BB_Spec.
Import ListNotations.
Open Scope N_scope.
Open Scope py_scope.

(** ** Octets, by enumeration *)

Fixpoint bl_eqb (a b : list bool) : bool :=
  match a, b with [], [] => true | x :: a', y :: b' => Bool.eqb x y && bl_eqb a' b' | _, _ => false end.
Lemma bl_eqb_eq a b : bl_eqb a b = true -> a = b.
Proof.
  revert b. induction a as [|x a IH]; intros [|y b]; cbn; try discriminate; [reflexivity|].
  intros H. apply andb_true_iff in H as [H1 H2]. apply Bool.eqb_prop in H1. f_equal; auto.
Qed.

Definition octet_facts (c : N) (k : nat) : bool :=
  let b := bits_of 8 c in
  let kn := N.of_nat k in
  bl_eqb (bits_of 8 (N.ldiff c (N.shiftr 255 kn))) (firstn k b ++ repeat false (8 - k)) &&
  bl_eqb (bits_of 8 (N.shiftr c kn)) (repeat false k ++ firstn (8 - k) b) &&
  bl_eqb (bits_of 8 (N.land (N.shiftl c kn) 255)) (skipn k b ++ repeat false k) &&
  (N.ldiff c (N.shiftr 255 kn) <? 256) && (N.shiftr c kn <? 256) && (N.land (N.shiftl c kn) 255 <? 256).

Definition all_octets : list N := map N.of_nat (seq 0 256).

Lemma octet_check : forallb (fun c => forallb (octet_facts c) (seq 0 9)) all_octets = true.
Proof. vm_compute. reflexivity. Qed.

Lemma octet_facts_ok c k : c < 256 -> (k <= 8)%nat -> octet_facts c k = true.
Proof.
  intros Hc Hk. pose proof octet_check as H. rewrite forallb_forall in H. specialize (H c).
  rewrite forallb_forall in H. apply H.
  - unfold all_octets. apply in_map_iff. exists (N.to_nat c). split; [apply N2Nat.id|]. apply in_seq. lia.
  - apply in_seq. lia.
Qed.

Section Octet.
  Variables (c : N) (k : nat).
  Hypothesis (Hc : c < 256) (Hk : (k <= 8)%nat).
  Lemma oct_mask : bits_of 8 (N.ldiff c (N.shiftr 255 (N.of_nat k))) = firstn k (bits_of 8 c) ++ repeat false (8 - k).
  Proof. pose proof (octet_facts_ok c k Hc Hk) as H. unfold octet_facts in H. rewrite !andb_true_iff in H. now apply bl_eqb_eq. Qed.
  Lemma oct_shr : bits_of 8 (N.shiftr c (N.of_nat k)) = repeat false k ++ firstn (8 - k) (bits_of 8 c).
  Proof. pose proof (octet_facts_ok c k Hc Hk) as H. unfold octet_facts in H. rewrite !andb_true_iff in H. now apply bl_eqb_eq. Qed.
  Lemma oct_shl : bits_of 8 (N.land (N.shiftl c (N.of_nat k)) 255) = skipn k (bits_of 8 c) ++ repeat false k.
  Proof. pose proof (octet_facts_ok c k Hc Hk) as H. unfold octet_facts in H. rewrite !andb_true_iff in H. now apply bl_eqb_eq. Qed.
  Lemma oct_mask_lt : N.ldiff c (N.shiftr 255 (N.of_nat k)) < 256.
  Proof. pose proof (octet_facts_ok c k Hc Hk) as H. unfold octet_facts in H. rewrite !andb_true_iff in H. now apply N.ltb_lt. Qed.
  Lemma oct_shr_lt : N.shiftr c (N.of_nat k) < 256.
  Proof. pose proof (octet_facts_ok c k Hc Hk) as H. unfold octet_facts in H. rewrite !andb_true_iff in H. now apply N.ltb_lt. Qed.
  Lemma oct_shl_lt : N.land (N.shiftl c (N.of_nat k)) 255 < 256.
  Proof. pose proof (octet_facts_ok c k Hc Hk) as H. unfold octet_facts in H. rewrite !andb_true_iff in H. now apply N.ltb_lt. Qed.
End Octet.

Fixpoint map2o (a b : list bool) : list bool :=
  match a, b with x :: a', y :: b' => (x || y) :: map2o a' b' | _, _ => [] end.

Lemma bits_of_lor n a b : bits_of n (N.lor a b) = map2o (bits_of n a) (bits_of n b).
Proof. induction n as [|n IH]; cbn; [reflexivity|]. now rewrite N.lor_spec, IH. Qed.

Lemma map2o_app a b c d : length a = length c -> map2o (a ++ b) (c ++ d) = map2o a c ++ map2o b d.
Proof. revert c. induction a as [|x a IH]; intros [|y c] H; cbn in *; try lia; [reflexivity|]. rewrite IH by lia. reflexivity. Qed.
Lemma map2o_zeros_r a n : length a = n -> map2o a (repeat false n) = a.
Proof. intros <-. induction a as [|x a IH]; cbn; [reflexivity|]. now rewrite IH, orb_false_r. Qed.
Lemma map2o_zeros_l a n : length a = n -> map2o (repeat false n) a = a.
Proof. intros <-. induction a as [|x a IH]; cbn; [reflexivity|]. now rewrite IH. Qed.

Lemma lor_lt a b : a < 256 -> b < 256 -> N.lor a b < 256.
Proof.
  intros Ha Hb. destruct (N.eq_dec (N.lor a b) 0) as [->|H]; [reflexivity|].
  apply (N.log2_lt_pow2 (N.lor a b) 8); [lia|]. rewrite N.log2_lor.
  destruct (N.eq_dec a 0) as [->|Ha0]; destruct (N.eq_dec b 0) as [->|Hb0]; cbn [N.log2]; try lia;
  repeat match goal with |- context [N.log2 ?x] => match goal with
    | H : N.log2 x < 8 |- _ => fail 1 | _ => assert (N.log2 x < 8) by (apply N.log2_lt_pow2; cbn; lia) end end; lia.
Qed.

(** [h] at the top of an octet, [g] below it. *)
Lemma lor_fill x y h g k : (k <= 8)%nat -> length h = k -> length g = (8 - k)%nat ->
  bits_of 8 x = h ++ repeat false (8 - k) -> bits_of 8 y = repeat false k ++ g -> bits_of 8 (N.lor x y) = h ++ g.
Proof.
  intros Hk Hh Hg Ex Ey. rewrite bits_of_lor, Ex, Ey, map2o_app by (rewrite repeat_length; lia).
  now rewrite map2o_zeros_r, map2o_zeros_l.
Qed.

Lemma firstn_repeat {A} (x : A) n m : firstn n (repeat x m) = repeat x (Nat.min n m).
Proof. revert m. induction n as [|n IH]; intros [|m]; cbn; try reflexivity. now rewrite IH. Qed.
Lemma skipn_repeat {A} (x : A) n m : skipn n (repeat x m) = repeat x (m - n).
Proof. revert m. induction n as [|n IH]; intros [|m]; cbn; try reflexivity. apply IH. Qed.

Lemma app_split {A} (a b c d : list A) : length a = length c -> a ++ b = c ++ d -> a = c /\ b = d.
Proof.
  revert c. induction a as [|x a IH]; intros [|y c] H E; cbn in *; try lia; [auto|].
  injection E as -> E. destruct (IH c) as [-> ->]; auto.
Qed.

Lemma upd_last_snoc f o x : upd_last f (o ++ [x]) = Ok (o ++ [f x]).
Proof.
  induction o as [|y o IH]; [reflexivity|]. cbn [app upd_last]. destruct (o ++ [x]) as [|z l] eqn:E; [destruct o; discriminate|].
  rewrite IH. reflexivity.
Qed.

Lemma bob_snoc o x : bits_of_bytes (o ++ [x]) = bits_of_bytes o ++ bits_of 8 x.
Proof. rewrite bits_of_bytes_app. unfold bits_of_bytes at 2. cbn [flat_map]. now rewrite app_nil_r. Qed.

Lemma bob_cons x o : bits_of_bytes (x :: o) = bits_of 8 x ++ bits_of_bytes o.
Proof. reflexivity. Qed.

Lemma is_bytes_snoc o x : is_bytes (o ++ [x]) <-> is_bytes o /\ x < 256.
Proof.
  unfold is_bytes. rewrite Forall_app. split; intros [H1 H2]; (split; [exact H1|]); [now inversion H2|repeat constructor; exact H2].
Qed.

Lemma snoc_of {A} (l : list A) : l <> [] -> exists o x, l = o ++ [x].
Proof. intros H. destruct (exists_last H) as (o & x & E). eauto. Qed.

(** Masking the last octet. *)
Lemma mask_last out j : out <> [] -> is_bytes out -> (j <= 8)%nat ->
  exists out', upd_last (fun x => N.ldiff x (N.shiftr 255 (N.of_nat j))) out = Ok out' /\ is_bytes out' /\
    length out' = length out /\
    bits_of_bytes out' = firstn (8 * (length out - 1) + j) (bits_of_bytes out) ++ repeat false (8 - j).
Proof.
  intros Hne Hb Hj. destruct (snoc_of out Hne) as (o & x & ->). apply is_bytes_snoc in Hb as [Hb Hx].
  eexists. rewrite upd_last_snoc. split; [reflexivity|]. split; [apply is_bytes_snoc; split; [exact Hb|now apply oct_mask_lt]|].
  split; [rewrite !app_length; reflexivity|].
  rewrite !bob_snoc, oct_mask by assumption. rewrite app_length. cbn [length]. replace (length o + 1 - 1)%nat with (length o) by lia.
  rewrite firstn_app, bits_of_bytes_length. rewrite (firstn_all2 (bits_of_bytes o)) by (rewrite bits_of_bytes_length; lia).
  replace (8 * length o + j - 8 * length o)%nat with j by lia. now rewrite <- app_assoc.
Qed.

(** The top octet of a partly filled list. *)
Lemma top_octet out A k : (k < 8)%nat -> (1 <= k)%nat ->
  bits_of_bytes out = A ++ repeat false (8 - k) ->
  exists o x h, out = o ++ [x] /\ A = bits_of_bytes o ++ h /\ length h = k /\ bits_of 8 x = h ++ repeat false (8 - k).
Proof.
  intros Hk Hk1 E.
  assert (Hl : (8 * length out = length A + (8 - k))%nat).
  { apply (f_equal (@length bool)) in E. rewrite bits_of_bytes_length, app_length, repeat_length in E. lia. }
  destruct out as [|y out'] eqn:Eo.
  - exfalso. cbn [length] in Hl. lia.
  - destruct (snoc_of (y :: out')) as (o & x & Es); [discriminate|]. rewrite Es in *. clear y out' Eo Es.
    rewrite app_length in Hl. cbn [length] in Hl. rewrite bob_snoc in E.
    exists o, x, (skipn (8 * length o) A). split; [reflexivity|].
    assert (HA : (length A = 8 * length o + k)%nat) by lia.
    assert (E2 : bits_of_bytes o ++ bits_of 8 x = firstn (8 * length o) A ++ (skipn (8 * length o) A ++ repeat false (8 - k)))
      by (rewrite app_assoc, firstn_skipn; exact E).
    apply app_split in E2 as [E3 E4]; [|rewrite bits_of_bytes_length, firstn_length; lia].
    split; [rewrite E3; symmetry; apply firstn_skipn|]. split; [rewrite skipn_length; lia|exact E4].
Qed.

Lemma removelast_snoc_bb {A} (l : list A) x : removelast (l ++ [x]) = l.
Proof. rewrite removelast_app by discriminate. cbn. apply app_nil_r. Qed.
Lemma last_snoc_bb {A} (l : list A) x d : last (l ++ [x]) d = x.
Proof. induction l as [|a l IH]; [reflexivity|]. cbn [app]. destruct l; [reflexivity|exact IH]. Qed.

(** ** StoreBits *)

Lemma store_loop_ok k : (1 <= k < 8)%nat -> forall inp out A, is_bytes inp -> is_bytes out ->
  bits_of_bytes out = A ++ repeat false (8 - k) ->
  exists out', store_loop k inp out = Ok out' /\ is_bytes out' /\
    bits_of_bytes out' = (A ++ bits_of_bytes inp) ++ repeat false (8 - k).
Proof.
  intros Hk. induction inp as [|c inp IH]; intros out A Hi Ho E.
  - exists out. cbn. rewrite app_nil_r. auto.
  - inversion Hi as [|? ? Hc Hi']; subst. destruct (top_octet out A k) as (o & x & h & -> & EA & Hh & Ex); [lia|lia|exact E|].
    apply is_bytes_snoc in Ho as [Ho Hx]. cbn [store_loop]. rewrite upd_last_snoc. cbn [bind].
    assert (E1 : bits_of 8 (N.lor x (N.shiftr c (N.of_nat k))) = h ++ firstn (8 - k) (bits_of 8 c)).
    { apply (lor_fill _ _ _ _ k); [lia|exact Hh|rewrite firstn_length, bits_of_length; lia|exact Ex|]. apply oct_shr; [exact Hc|lia]. }
    assert (E2 : bits_of 8 (N.land (N.shiftl c (N.of_nat (8 - k))) 255) = skipn (8 - k) (bits_of 8 c) ++ repeat false (8 - k)).
    { apply oct_shl; [exact Hc|lia]. }
    destruct (IH ((o ++ [N.lor x (N.shiftr c (N.of_nat k))]) ++ [N.land (N.shiftl c (N.of_nat (8 - k))) 255]) (A ++ bits_of 8 c)) as (out' & Eo & Hb & Eb).
    + exact Hi'.
    + apply is_bytes_snoc. split; [|apply oct_shl_lt; [exact Hc|lia]]. apply is_bytes_snoc. split; [exact Ho|].
      apply lor_lt; [exact Hx|]. apply oct_shr_lt; [exact Hc|lia].
    + rewrite !bob_snoc, E1, E2, EA. rewrite <- !app_assoc. do 2 f_equal. rewrite app_assoc, firstn_skipn. reflexivity.
    + exists out'. split; [exact Eo|]. split; [exact Hb|]. rewrite Eb, bob_cons, <- !app_assoc. reflexivity.
Qed.

Lemma match_nonempty {A B} (l : list A) (X Y : B) : l <> [] -> match l with [] => X | _ :: _ => Y end = Y.
Proof. destruct l; [congruence|reflexivity]. Qed.

Definition bytes_for (n : nat) : nat := ((n + 7) / 8)%nat.

Lemma bytes_for_split n m : (1 <= m)%nat -> m = bytes_for n ->
  n = (8 * (m - 1) + (if (n mod 8 =? 0)%nat then 8 else n mod 8))%nat.
Proof.
  unfold bytes_for. intros Hm ->. pose proof (Nat.div_mod n 8 ltac:(lia)). pose proof (Nat.mod_upper_bound n 8 ltac:(lia)).
  destruct (Nat.eqb_spec (n mod 8) 0) as [E|E].
  - assert (En : n = (n / 8 * 8)%nat) by lia. assert (Eq : ((n + 7) / 8 = n / 8)%nat) by (symmetry; apply Nat.div_unique with (r := 7%nat); lia). lia.
  - assert (Eq : ((n + 7) / 8 = n / 8 + 1)%nat) by (symmetry; apply Nat.div_unique with (r := (n mod 8 - 1)%nat); lia). lia.
Qed.

Definition rep (b : bb) (q : bitq) : Prop :=
  is_bytes (bb_out b) /\
  bits_of_bytes (bb_out b) = q_bits q ++ repeat false (pad_len (length (q_bits q))) /\
  bb_boff b = (length (q_bits q) mod 8)%nat /\
  (q_pos q = 8 * bb_ibyte b + bb_iboff b)%nat /\ (bb_iboff b < 8)%nat.

Lemma rep_new : rep bb_new q_new.
Proof. repeat split; try constructor. cbn. lia. Qed.

Lemma pad_small k : (1 <= k < 8)%nat -> forall n, (n mod 8 = k)%nat -> pad_len n = (8 - k)%nat.
Proof. intros Hk n E. unfold pad_len. rewrite E. apply Nat.mod_small. lia. Qed.

Lemma mod_of a q r : (a = 8 * q + r)%nat -> (r < 8)%nat -> (a mod 8 = r)%nat.
Proof. intros -> H. rewrite Nat.add_comm, Nat.mul_comm, Nat.mod_add by lia. now apply Nat.mod_small. Qed.

Lemma store_ok b q inp n : rep b q -> is_bytes inp -> length inp = bytes_for n ->
  exists b', bb_store b inp n = Ok b' /\ rep b' (q_store q (firstn n (bits_of_bytes inp))).
Proof.
  intros (Hb & HB & Hk & Hp & Hi) Hinp Hlen.
  assert (Hc0 : inp = [] \/ inp <> []) by (destruct inp; [left; reflexivity|right; discriminate]). destruct Hc0 as [->|Hne].
  { exists b. split; [reflexivity|]. unfold q_store. cbn [bits_of_bytes flat_map]. rewrite firstn_nil, app_nil_r. repeat split; assumption. }
  assert (Hm : (1 <= length inp)%nat) by (destruct inp; [congruence|cbn; lia]).
  pose proof (bytes_for_split n (length inp) Hm Hlen) as Hn.
  set (left := if (n mod 8 =? 0)%nat then 8%nat else (n mod 8)%nat) in *.
  assert (Hleft : (1 <= left <= 8)%nat).
  { unfold left. destruct (Nat.eqb_spec (n mod 8) 0); [lia|]. pose proof (Nat.mod_upper_bound n 8). lia. }
  assert (HI : length (bits_of_bytes inp) = (8 * length inp)%nat) by apply bits_of_bytes_length.
  set (W := q_bits q) in *. set (I := bits_of_bytes inp) in *.
  assert (HLW : length (W ++ firstn n I) = (length W + n)%nat) by (rewrite app_length, firstn_length; lia).
  (* the conclusion, from the final octets and offset *)
  assert (Fin : forall out j, is_bytes out -> (1 <= j <= 8)%nat -> ((length W + n) mod 8 = j mod 8)%nat ->
     bits_of_bytes out = (W ++ firstn n I) ++ repeat false (8 - j) ->
     (if (j mod 8 =? (bb_boff b + n) mod 8)%nat then Ok (mk_bb out (j mod 8) (bb_ibyte b) (bb_iboff b)) else Err StandardError)
       = Ok (mk_bb out (j mod 8) (bb_ibyte b) (bb_iboff b)) /\
     rep (mk_bb out (j mod 8) (bb_ibyte b) (bb_iboff b)) (q_store q (firstn n I))).
  { intros out j Ho Hj Hmod E. split.
    - rewrite Hk. rewrite Nat.add_mod_idemp_l by lia. rewrite Hmod, Nat.eqb_refl. reflexivity.
    - unfold rep, q_store. cbn [bb_out bb_boff bb_ibyte bb_iboff q_bits q_pos]. fold W. rewrite HLW.
      split; [exact Ho|]. split; [|split; [now rewrite Hmod|split; assumption]]. rewrite E. do 2 f_equal. unfold pad_len. rewrite Hmod.
      assert (Hc : (j < 8 \/ j = 8)%nat) by lia. destruct Hc as [Hc|Hc].
      + rewrite (Nat.mod_small j) by lia. symmetry. apply Nat.mod_small. lia.
      + subst j. reflexivity. }
  unfold bb_store. rewrite (match_nonempty inp) by exact Hne. fold left.
  destruct (Nat.eqb_spec (bb_boff b) 0) as [E0|E0].
  - (* aligned *)
    assert (Hpad : pad_len (length W) = 0%nat) by (unfold pad_len; rewrite <- Hk, E0; reflexivity).
    rewrite Hpad in HB. cbn [repeat] in HB. rewrite app_nil_r in HB.
    destruct (mask_last (bb_out b ++ inp) left) as (out & Eo & Ho & Hlo & EB).
    + intros E. apply app_eq_nil in E as [_ E]. now apply Hne.
    + apply Forall_app. auto.
    + lia.
    + rewrite Eo. cbn [bind].
      assert (HlW : (8 * length (bb_out b) = length W)%nat) by (rewrite <- HB, bits_of_bytes_length; reflexivity).
      destruct (Fin out left) as [F1 F2]; [exact Ho|lia| | |].
      * rewrite Hn. replace (length W + (8 * (length inp - 1) + left))%nat with (left + (length (bb_out b) + (length inp - 1)) * 8)%nat by lia.
        apply Nat.mod_add. lia.
      * rewrite EB. f_equal. rewrite bits_of_bytes_app, HB. fold I. rewrite app_length.
        replace (8 * (length (bb_out b) + length inp - 1) + left)%nat with (length W + n)%nat by lia.
        now rewrite firstn_app_2.
      * rewrite E0 in *. eexists. split; [exact F1|exact F2].
  - (* not aligned *)
    set (k := bb_boff b) in *.
    assert (Hk8 : (1 <= k < 8)%nat) by (split; [lia|]; rewrite Hk; apply Nat.mod_upper_bound; lia).
    assert (Hpad : pad_len (length W) = (8 - k)%nat) by (apply pad_small; [exact Hk8|now rewrite Hk]). rewrite Hpad in HB.
    destruct (store_loop_ok k Hk8 inp (bb_out b) W Hinp Hb HB) as (out1 & E1 & Hb1 & HB1). rewrite E1. cbn [bind]. fold I in HB1.
    assert (Hl1 : (8 * length out1 = length W + 8 * length inp + (8 - k))%nat).
    { apply (f_equal (@length bool)) in HB1. rewrite bits_of_bytes_length, !app_length, repeat_length in HB1. lia. }
    assert (HWq : exists w, (length W = 8 * w + k)%nat).
    { exists (length W / 8)%nat. rewrite Hk. apply Nat.div_mod. lia. }
    destruct HWq as [w Hw].
    destruct (Nat.leb_spec (k + left) 8) as [Hle|Hgt].
    + (* the last octet is dropped *)
      destruct (snoc_of out1) as (o1 & z1 & Ez); [intros Ee; rewrite Ee in Hl1; cbn in Hl1; lia|].
      subst out1. rewrite removelast_snoc_bb. apply is_bytes_snoc in Hb1 as [Hb1 Hz1]. rewrite app_length in Hl1. cbn [length] in Hl1.
      destruct (snoc_of inp) as (inp1 & c & Ec); [exact Hne|].
      assert (Hc : c < 256) by (rewrite Ec in Hinp; now apply is_bytes_snoc in Hinp).
      assert (EI : I = bits_of_bytes inp1 ++ bits_of 8 c) by (unfold I; rewrite Ec; apply bob_snoc).
      assert (Hl2 : length inp = S (length inp1)) by (rewrite Ec, app_length; cbn; lia).
      replace (last inp 0) with c by (rewrite Ec; symmetry; apply last_snoc_bb).
      assert (HB2 : bits_of_bytes o1 = W ++ bits_of_bytes inp1 ++ firstn (8 - k) (bits_of 8 c)).
      { rewrite bob_snoc in HB1. rewrite EI in HB1.
        assert (E3 : bits_of_bytes o1 ++ bits_of 8 z1 = (W ++ bits_of_bytes inp1 ++ firstn (8 - k) (bits_of 8 c)) ++ (skipn (8 - k) (bits_of 8 c) ++ repeat false (8 - k))).
        { rewrite HB1, <- !app_assoc. do 2 f_equal. rewrite app_assoc, firstn_skipn. reflexivity. }
        apply app_split in E3 as [E3 _]; [exact E3|]. rewrite !app_length, !bits_of_bytes_length, firstn_length, bits_of_length. lia. }
      destruct (snoc_of o1) as (o2 & z & Ez); [intros Ee; rewrite Ee in Hl1; cbn in Hl1; lia|]. subst o1.
      apply is_bytes_snoc in Hb1 as [Hb2 Hz]. rewrite app_length in Hl1. cbn [length] in Hl1.
      (* or-ing the last octet again changes nothing *)
      assert (Ezz : exists h, length h = k /\ bits_of 8 z = h ++ firstn (8 - k) (bits_of 8 c) /\ bits_of_bytes o2 ++ h = W ++ bits_of_bytes inp1).
      { rewrite bob_snoc in HB2. set (V := W ++ bits_of_bytes inp1) in *.
        assert (HV : length V = (8 * length o2 + k)%nat) by (unfold V; rewrite app_length, bits_of_bytes_length; lia).
        exists (skipn (8 * length o2) V). split; [rewrite skipn_length; lia|].
        rewrite app_assoc in HB2. fold V in HB2.
        assert (E3 : bits_of_bytes o2 ++ bits_of 8 z = firstn (8 * length o2) V ++ (skipn (8 * length o2) V ++ firstn (8 - k) (bits_of 8 c)))
          by (rewrite app_assoc, firstn_skipn; exact HB2).
        apply app_split in E3 as [E3 E4]; [|rewrite bits_of_bytes_length, firstn_length; lia].
        split; [exact E4|]. rewrite E3. apply firstn_skipn. }
      destruct Ezz as (h & Hh & Ezh & Eo2). rewrite upd_last_snoc. cbn [bind].
      assert (Hlor : bits_of 8 (N.lor z (N.shiftr c (N.of_nat k))) = h ++ firstn (8 - k) (bits_of 8 c)).
      { rewrite bits_of_lor, Ezh, oct_shr by (assumption || lia). rewrite map2o_app by (rewrite repeat_length; lia).
        rewrite map2o_zeros_r by exact Hh. f_equal. clear. induction (firstn (8 - k) (bits_of 8 c)) as [|x l IH]; cbn; [reflexivity|]. now rewrite orb_diag, IH. }
      assert (Hlz : N.lor z (N.shiftr c (N.of_nat k)) < 256) by (apply lor_lt; [exact Hz|apply oct_shr_lt; [exact Hc|lia]]).
      assert (HF : firstn n I = bits_of_bytes inp1 ++ firstn left (bits_of 8 c)).
      { rewrite EI, firstn_app, bits_of_bytes_length. rewrite firstn_all2 by (rewrite bits_of_bytes_length; lia). do 2 f_equal. lia. }
      destruct (Nat.eqb_spec ((k + left) mod 8) 0) as [Em|Em].
      * assert (Hkl : (k + left = 8)%nat).
        { destruct (Nat.eq_dec (k + left) 8); [assumption|]. rewrite Nat.mod_small in Em; lia. }
        cbn [bind]. destruct (Fin (o2 ++ [N.lor z (N.shiftr c (N.of_nat k))]) 8%nat) as [F1 F2]; [apply is_bytes_snoc; auto|lia| | |].
        -- rewrite Hn, Hl2. replace (length W + (8 * (S (length inp1) - 1) + left))%nat with (8 + (w + length inp1) * 8)%nat by lia. apply Nat.mod_add. lia.
        -- cbn [Nat.sub repeat]. rewrite app_nil_r, bob_snoc, Hlor, app_assoc, Eo2, HF, <- app_assoc. do 2 f_equal. f_equal. lia.
        -- rewrite Em. change (8 mod 8)%nat with 0%nat in F1, F2. eexists. split; [exact F1|exact F2].
      * assert (Hkl : ((k + left) mod 8 = k + left)%nat).
        { apply Nat.mod_small. destruct (Nat.eq_dec (k + left) 8) as [E|]; [rewrite E in Em; now contradiction Em|lia]. }
        assert (Hkl8 : (k + left < 8)%nat) by (rewrite <- Hkl; apply Nat.mod_upper_bound; lia).
        rewrite Hkl.
        destruct (mask_last (o2 ++ [N.lor z (N.shiftr c (N.of_nat k))]) (k + left)) as (out & Eo & Ho & Hlo & EB).
        -- destruct o2; discriminate.
        -- apply is_bytes_snoc; auto.
        -- lia.
        -- rewrite Eo. cbn [bind]. destruct (Fin out (k + left)%nat) as [F1 F2]; [exact Ho|lia| | |].
           ++ rewrite Hn, Hl2. replace (length W + (8 * (S (length inp1) - 1) + left))%nat with ((k + left) + (w + length inp1) * 8)%nat by lia. apply Nat.mod_add. lia.
           ++ rewrite EB. f_equal. rewrite app_length. cbn [length]. replace (length o2 + 1 - 1)%nat with (length o2) by lia.
              rewrite bob_snoc, Hlor, app_assoc, Eo2, HF, <- app_assoc.
              assert (HLV : length (W ++ bits_of_bytes inp1) = (8 * length o2 + k)%nat) by (rewrite <- Eo2, app_length, bits_of_bytes_length; lia).
              rewrite app_assoc, firstn_app, HLV. replace (8 * length o2 + (k + left) - (8 * length o2 + k))%nat with left by lia.
              rewrite firstn_all2 by lia. rewrite firstn_firstn, <- app_assoc. do 3 f_equal. lia.
           ++ rewrite Hkl in F1, F2. eexists. split; [exact F1|exact F2].
    + (* the last octet stays *)
      cbn [bind].
      assert (Hkl : ((k + left) mod 8 = k + left - 8)%nat) by (apply (mod_of _ 1); lia). rewrite Hkl.
      destruct (Nat.eqb_spec (k + left - 8) 0); [lia|].
      destruct (mask_last out1 (k + left - 8)) as (out & Eo & Ho & Hlo & EB); [intros Ee; rewrite Ee in Hl1; cbn in Hl1; lia|exact Hb1|lia|].
      rewrite Eo. cbn [bind]. assert (Hj : ((k + left - 8) mod 8 = k + left - 8)%nat) by (apply Nat.mod_small; lia).
      destruct (Fin out (k + left - 8)%nat) as [F1 F2]; [exact Ho|lia| | |].
      * rewrite Hj. apply (mod_of _ (w + length inp)); lia.
      * rewrite EB. f_equal. rewrite HB1. replace (8 * (length out1 - 1) + (k + left - 8))%nat with (length W + n)%nat by lia.
        rewrite <- app_assoc, firstn_app_2. f_equal. rewrite firstn_app. replace (n - length I)%nat with 0%nat by lia. now rewrite firstn_O, app_nil_r.
      * rewrite Hj in F1, F2. eexists. split; [exact F1|exact F2].
Qed.

(** ** GetBits *)

Lemma bob_firstn m l : bits_of_bytes (firstn m l) = firstn (8 * m) (bits_of_bytes l).
Proof.
  revert m. induction l as [|x l IH]; intros [|m]; try reflexivity.
  - cbn [firstn]. rewrite !bob_cons, firstn_app, bits_of_length. rewrite (firstn_all2 (bits_of 8 x)) by (rewrite bits_of_length; lia).
    rewrite IH. do 2 f_equal. lia.
Qed.

Lemma bob_skipn m l : bits_of_bytes (skipn m l) = skipn (8 * m) (bits_of_bytes l).
Proof.
  revert m. induction l as [|x l IH]; intros [|m]; try reflexivity.
  - cbn [skipn]. rewrite bob_cons, skipn_app, bits_of_length. rewrite (skipn_all2 (bits_of 8 x)) by (rewrite bits_of_length; lia).
    cbn [app]. rewrite IH. f_equal. lia.
Qed.

Lemma pynth_ok l i : (i < length l)%nat -> exists a x r, l = a ++ x :: r /\ length a = i /\ pynth l i = Ok x.
Proof.
  intros H. destruct (nth_error l i) as [x|] eqn:E; [|apply nth_error_None in E; lia].
  destruct (nth_error_split l i E) as (a & r & -> & Hl). exists a, x, r. unfold pynth. rewrite E. auto.
Qed.

Lemma is_bytes_mid a x r : is_bytes (a ++ x :: r) -> is_bytes a /\ x < 256 /\ is_bytes r.
Proof. intros H. apply Forall_app in H as [H1 H2]. inversion H2; subst. auto. Qed.

Lemma get_whole_ok out : forall m i, (i + m <= length out)%nat -> get_whole out m i = Ok (firstn m (skipn i out)).
Proof.
  induction m as [|m IH]; intros i H; [reflexivity|]. cbn [get_whole].
  destruct (pynth_ok out i) as (a & x & r & E & Hl & Ex); [lia|]. rewrite Ex. cbn [bind]. rewrite IH by lia. cbn [bind].
  rewrite E. rewrite !skipn_app. rewrite Hl. replace (i - i)%nat with 0%nat by lia. replace (S i - i)%nat with 1%nat by lia.
  rewrite (skipn_all2 a) by lia. rewrite (skipn_all2 a) by lia. reflexivity.
Qed.

(** The octet at a position of the bit list. *)
Lemma octet_at a x r n : length a = n ->
  skipn (8 * n) (bits_of_bytes (a ++ x :: r)) = bits_of 8 x ++ bits_of_bytes r.
Proof.
  intros <-. rewrite bits_of_bytes_app, skipn_app, bits_of_bytes_length, Nat.sub_diag.
  rewrite (skipn_all2 (bits_of_bytes a)) by (rewrite bits_of_bytes_length; lia). reflexivity.
Qed.

Lemma skipn_add {A} (l : list A) a b : skipn (a + b) l = skipn b (skipn a l).
Proof. revert l. induction a as [|a IH]; intros [|x l]; cbn; try reflexivity; [now rewrite skipn_nil|apply IH]. Qed.

Lemma firstn_add {A} (l : list A) a b : firstn (a + b) l = firstn a l ++ firstn b (skipn a l).
Proof. revert l. induction a as [|a IH]; intros [|x l]; cbn; try reflexivity; [now rewrite firstn_nil|now rewrite IH]. Qed.

Lemma get_loop_ok out : is_bytes out -> forall fuel ib io cur co ret left h,
  is_bytes ret -> cur < 256 -> (io < 8)%nat -> (co < 8)%nat -> length h = co -> bits_of 8 cur = h ++ repeat false (8 - co) ->
  ((8 <= left)%nat -> co = 0%nat /\ (0 < io)%nat) -> (8 * ib + io + left <= 8 * length out)%nat -> (left <= fuel)%nat ->
  exists ib' io' cur' co' ret' h', get_loop fuel out ib io cur co ret left = Ok (ib', io', cur', co', ret') /\
    is_bytes ret' /\ cur' < 256 /\ (io' < 8)%nat /\ (co' < 8)%nat /\ length h' = co' /\ bits_of 8 cur' = h' ++ repeat false (8 - co') /\
    bits_of_bytes ret' ++ h' = bits_of_bytes ret ++ h ++ firstn left (skipn (8 * ib + io) (bits_of_bytes out)) /\
    (8 * ib' + io' = 8 * ib + io + left)%nat.
Proof.
  intros Ho. induction fuel as [|f IH]; intros ib io cur co ret left h Hret Hcur Hio Hco Hh Ecur H8 Hpos Hf.
  - assert (left = 0%nat) as -> by lia. exists ib, io, cur, co, ret, h. cbn [get_loop]. rewrite firstn_O, app_nil_r, Nat.add_0_r. repeat split; auto.
  - destruct left as [|l0] eqn:El.
    { exists ib, io, cur, co, ret, h. cbn [get_loop]. rewrite firstn_O, app_nil_r, Nat.add_0_r. repeat split; auto. }
    rewrite <- El in *. assert (Hl : (1 <= left)%nat) by lia.
    assert (Eg : get_loop (S f) out ib io cur co ret left =
      if (8 <=? left)%nat && (ib <? length out)%nat then
          let* x := pynth out ib in
          let cur := N.land 255 (N.shiftl x (N.of_nat io)) in
          let* y := pynth out (S ib) in
          let cur := N.lor cur (N.shiftr y (N.of_nat (8 - io))) in
          get_loop f out (S ib) io 0 co (ret ++ [cur]) (left - 8)
        else
          let n := Nat.min (Nat.min (8 - co) (8 - io)) left in
          let* x := pynth out ib in
          let c := N.land (N.shiftl x (N.of_nat io)) 255 in
          let cur := N.lor cur (N.shiftr (N.ldiff c (N.shiftr 255 (N.of_nat n))) (N.of_nat co)) in
          let left := (left - n)%nat in
          let co := (co + n)%nat in
          let io := (io + n)%nat in
          let '(ret, cur, co) := if (8 <=? co)%nat then (ret ++ [cur], 0, (co - 8)%nat) else (ret, cur, co) in
          if (8 <=? io)%nat then
            if (8 <=? io - 8)%nat then Err StandardError
            else get_loop f out (S ib) (io - 8) cur co ret left
          else get_loop f out ib io cur co ret left).
    { rewrite El. reflexivity. }
    rewrite Eg. clear Eg El l0.
    destruct (pynth_ok out ib) as (a & x & r & Eout & Hla & Ex); [lia|]. rewrite Ex. cbn [bind].
    assert (Hx : x < 256) by (rewrite Eout in Ho; now apply is_bytes_mid in Ho).
    assert (EB : skipn (8 * ib) (bits_of_bytes out) = bits_of 8 x ++ bits_of_bytes r) by (rewrite Eout; now apply octet_at).
    destruct (Nat.leb_spec 8 left) as [Hl8|Hl8]; cbn [andb].
    + destruct (H8 Hl8) as [Hc0 Hio0]. subst co. rewrite Hc0 in *. destruct h; [|discriminate].
      destruct (Nat.ltb_spec ib (length out)); [|lia].
      assert (Hr : exists y r', r = y :: r').
      { rewrite Eout, app_length in Hpos. cbn [length] in Hpos. destruct r as [|y r']; [cbn in Hpos; lia|eauto]. }
      destruct Hr as (y & r' & ->).
      assert (Ey : pynth out (S ib) = Ok y).
      { unfold pynth. rewrite Eout. rewrite nth_error_app2 by lia. replace (S ib - length a)%nat with 1%nat by lia. reflexivity. }
      rewrite Ey. cbn [bind].
      assert (Hy : y < 256) by (rewrite Eout in Ho; apply is_bytes_mid in Ho as (_ & _ & Ho); now inversion Ho).
      set (o := N.lor (N.land 255 (N.shiftl x (N.of_nat io))) (N.shiftr y (N.of_nat (8 - io)))).
      assert (Eo : bits_of 8 o = skipn io (bits_of 8 x) ++ firstn io (bits_of 8 y)).
      { unfold o. apply (lor_fill _ _ _ _ (8 - io)); [lia|rewrite skipn_length, bits_of_length; lia|rewrite firstn_length, bits_of_length; lia| |].
        - rewrite N.land_comm, oct_shl by (assumption || lia). do 2 f_equal. lia.
        - rewrite oct_shr by (assumption || lia). do 2 f_equal. lia. }
      assert (Hob : o < 256).
      { unfold o. apply lor_lt; [rewrite N.land_comm; apply oct_shl_lt; [exact Hx|lia]|apply oct_shr_lt; [exact Hy|lia]]. }
      destruct (IH (S ib) io 0 0%nat (ret ++ [o]) (left - 8)%nat []) as (ib' & io' & cur' & co' & ret' & h' & G1 & G2 & G3 & G4 & G5 & G6 & G7 & G8 & G9); try assumption; try lia; try reflexivity.
      * apply is_bytes_snoc. auto.
      * exists ib', io', cur', co', ret', h'. split; [exact G1|]. repeat (split; [assumption|]). split; [|lia].
        rewrite G8, bob_snoc, Eo. cbn [app]. replace left with (8 + (left - 8))%nat at 2 by lia. rewrite firstn_add, <- !app_assoc. f_equal.
        rewrite app_assoc. f_equal.
        -- rewrite skipn_add, EB, bob_cons. rewrite skipn_app, bits_of_length. replace (io - 8)%nat with 0%nat by lia. cbn [skipn].
           rewrite firstn_app, skipn_length, bits_of_length. rewrite (firstn_all2 (skipn io (bits_of 8 x))) by (rewrite skipn_length, bits_of_length; lia). f_equal.
           replace (8 - (8 - io))%nat with io by lia. rewrite firstn_app, bits_of_length. replace (io - 8)%nat with 0%nat by lia. now rewrite firstn_O, app_nil_r.
        -- f_equal. rewrite <- skipn_add. f_equal. lia.
    + set (n := Nat.min (Nat.min (8 - co) (8 - io)) left).
      assert (Hn : (1 <= n)%nat /\ (n <= 8 - co)%nat /\ (n <= 8 - io)%nat /\ (n <= left)%nat) by (unfold n; lia).
      destruct Hn as (Hn1 & Hnc & Hni & Hnl). cbv zeta.
      set (c := N.land (N.shiftl x (N.of_nat io)) 255).
      assert (Hc : c < 256) by (apply oct_shl_lt; [exact Hx|lia]).
      assert (Ec : bits_of 8 c = skipn io (bits_of 8 x) ++ repeat false io) by (apply oct_shl; [exact Hx|lia]).
      set (g := firstn n (skipn io (bits_of 8 x))).
      assert (Hg : length g = n) by (unfold g; rewrite firstn_length, skipn_length, bits_of_length; lia).
      set (m := N.ldiff c (N.shiftr 255 (N.of_nat n))).
      assert (Hm : m < 256) by (apply oct_mask_lt; [exact Hc|lia]).
      assert (Em : bits_of 8 m = g ++ repeat false (8 - n)).
      { unfold m. rewrite oct_mask by (assumption || lia). rewrite Ec, firstn_app, skipn_length, bits_of_length.
        replace (n - (8 - io))%nat with 0%nat by lia. rewrite firstn_O, app_nil_r. reflexivity. }
      set (cur2 := N.lor cur (N.shiftr m (N.of_nat co))).
      assert (Hcur2 : cur2 < 256) by (apply lor_lt; [exact Hcur|apply oct_shr_lt; [exact Hm|lia]]).
      assert (Ecur2 : bits_of 8 cur2 = (h ++ g) ++ repeat false (8 - (co + n))).
      { unfold cur2. rewrite <- app_assoc. apply (lor_fill _ _ _ _ co); [lia|exact Hh|rewrite app_length, repeat_length; lia|exact Ecur|].
        rewrite oct_shr by (assumption || lia). f_equal. rewrite Em, firstn_app, Hg. rewrite (firstn_all2 g) by lia. f_equal.
        rewrite firstn_repeat. f_equal. lia. }
      assert (ER : firstn left (skipn (8 * ib + io) (bits_of_bytes out)) = g ++ firstn (left - n) (skipn (8 * ib + (io + n)) (bits_of_bytes out))).
      { replace left with (n + (left - n))%nat at 1 by lia. rewrite firstn_add. f_equal.
        - rewrite skipn_add, EB, skipn_app, bits_of_length. replace (io - 8)%nat with 0%nat by lia. cbn [skipn].
          rewrite firstn_app, skipn_length, bits_of_length. replace (n - (8 - io))%nat with 0%nat by lia. rewrite firstn_O, app_nil_r. reflexivity.
        - rewrite <- skipn_add. do 2 f_equal. lia. }
      (* the next state, whichever it is *)
      assert (Nx : exists ret2 cur3 co2 h2,
        (if (8 <=? co + n)%nat then (ret ++ [cur2], 0, (co + n - 8)%nat) else (ret, cur2, (co + n)%nat)) = (ret2, cur3, co2) /\
        is_bytes ret2 /\ cur3 < 256 /\ (co2 < 8)%nat /\ length h2 = co2 /\ bits_of 8 cur3 = h2 ++ repeat false (8 - co2) /\
        bits_of_bytes ret2 ++ h2 = bits_of_bytes ret ++ h ++ g).
      { destruct (Nat.leb_spec 8 (co + n)) as [Hc8|Hc8].
        - assert (Hcn : (co + n = 8)%nat) by lia. exists (ret ++ [cur2]), 0, (co + n - 8)%nat, []. split; [reflexivity|].
          split; [apply is_bytes_snoc; auto|]. split; [reflexivity|]. rewrite Hcn. repeat split; try lia.
          rewrite bob_snoc, Ecur2, Hcn, !app_nil_r. reflexivity.
        - exists ret, cur2, (co + n)%nat, (h ++ g). repeat split; try assumption. rewrite app_length. lia. }
      destruct Nx as (ret2 & cur3 & co2 & h2 & -> & N1 & N2 & N3 & N4 & N5 & N6).
      destruct (Nat.leb_spec 8 (io + n)) as [Hi8|Hi8].
      * assert (Hin : (io + n = 8)%nat) by lia. rewrite Hin. cbn [Nat.sub Nat.leb].
        destruct (IH (S ib) 0%nat cur3 co2 ret2 (left - n)%nat h2) as (ib' & io' & cur' & co' & ret' & h' & G1 & G2 & G3 & G4 & G5 & G6 & G7 & G8 & G9); try assumption; try lia.
        exists ib', io', cur', co', ret', h'. split; [exact G1|]. repeat (split; [assumption|]). split; [|lia].
        rewrite G8, app_assoc, N6, ER, Hin, <- !app_assoc. do 5 f_equal. lia.
      * destruct (IH ib (io + n)%nat cur3 co2 ret2 (left - n)%nat h2) as (ib' & io' & cur' & co' & ret' & h' & G1 & G2 & G3 & G4 & G5 & G6 & G7 & G8 & G9); try assumption; try lia.
        exists ib', io', cur', co', ret', h'. split; [exact G1|]. repeat (split; [assumption|]). split; [|lia].
        rewrite G8, app_assoc, N6, ER, <- !app_assoc. reflexivity.
Qed.

Lemma rep_num b q : rep b q -> bb_num b = length (q_bits q).
Proof.
  intros (Hb & HB & Hk & _). apply (f_equal (@length bool)) in HB. rewrite bits_of_bytes_length, app_length, repeat_length in HB.
  unfold bb_num. unfold pad_len in HB. rewrite Hk, Nat.mod_mod by lia.
  pose proof (Nat.mod_upper_bound (length (q_bits q)) 8 ltac:(lia)).
  destruct (Nat.eqb_spec (length (q_bits q) mod 8) 0) as [E|E].
  - rewrite E in HB. change ((8 - 0) mod 8)%nat with 0%nat in HB. lia.
  - rewrite (Nat.mod_small (8 - _)) in HB by lia. lia.
Qed.

Lemma bytes_of_bits_unique ret l : is_bytes ret -> bits_of_bytes ret = l ++ repeat false (pad_len (length l)) -> ret = bytes_of_bits l.
Proof.
  intros Hb E. destruct (bytes_of_bits_spec l) as [E2 Hb2]. apply bits_of_bytes_inj; [exact Hb|exact Hb2|]. now rewrite E, E2.
Qed.

Lemma get_ok b q n : rep b q ->
  match q_get q n with
  | Some (l, q') => exists b', bb_get b n = Ok (bytes_of_bits l, b') /\ rep b' q'
  | None => bb_get b n = Err StandardError
  end.
Proof.
  intros Hr. pose proof (rep_num b q Hr) as Hnum. pose proof Hr as (Hb & HB & Hk & Hp & Hi). unfold q_get, bb_get. rewrite Hnum.
  rewrite <- Hp. set (W := q_bits q) in *. set (out := bb_out b) in *.
  destruct (Nat.leb_spec (q_pos q + n) (length W)) as [Hle|Hgt].
  2:{ destruct (Nat.ltb_spec (length W) (q_pos q + n)); [reflexivity|lia]. }
  destruct (Nat.ltb_spec (length W) (q_pos q + n)); [lia|].
  assert (HL : (8 * length out = length W + pad_len (length W))%nat).
  { apply (f_equal (@length bool)) in HB. now rewrite bits_of_bytes_length, app_length, repeat_length in HB. }
  set (l := firstn n (skipn (q_pos q) W)).
  assert (Hl : length l = n) by (unfold l; rewrite firstn_length, skipn_length; lia).
  assert (El : firstn n (skipn (q_pos q) (bits_of_bytes out)) = l).
  { rewrite HB, skipn_app, firstn_app, skipn_length. replace (n - (length W - q_pos q))%nat with 0%nat by lia. now rewrite firstn_O, app_nil_r. }
  (* any octets with the right bits will do *)
  assert (Fin : forall ret ib io, is_bytes ret -> bits_of_bytes ret = l ++ repeat false (pad_len n) ->
    (8 * ib + io = q_pos q + n)%nat -> (io < 8)%nat ->
    exists b', (if ((bb_iboff b + n) mod 8 =? io)%nat then Ok (ret, mk_bb out (bb_boff b) ib io) else Err StandardError) = Ok (bytes_of_bits l, b') /\
      rep b' (mk_q W (q_pos q + n))).
  { intros ret ib io Hret Eret Hpos Hio. exists (mk_bb out (bb_boff b) ib io). split.
    - assert (Em : ((bb_iboff b + n) mod 8 = io)%nat).
      { symmetry. rewrite Hp in Hpos. replace (bb_iboff b + n)%nat with (io + 8 * (ib - bb_ibyte b))%nat by lia.
        rewrite (Nat.mul_comm 8), Nat.mod_add by lia. symmetry. apply Nat.mod_small. exact Hio. }
      rewrite Em, Nat.eqb_refl. do 2 f_equal. apply bytes_of_bits_unique; [exact Hret|]. now rewrite Hl.
    - unfold rep. cbn [bb_out bb_boff bb_ibyte bb_iboff q_bits q_pos]. repeat split; try assumption. lia. }
  pose proof (Nat.div_mod n 8 ltac:(lia)) as Hdm. pose proof (Nat.mod_upper_bound n 8 ltac:(lia)) as Hm8.
  destruct (Nat.eqb_spec (bb_iboff b) 0) as [E0|E0].
  - rewrite get_whole_ok by lia. cbn [bind].
    set (r := firstn (n / 8) (skipn (bb_ibyte b) out)).
    assert (Hrb : is_bytes r).
    { unfold r. apply Forall_forall. intros y Hy. unfold is_bytes in Hb. rewrite Forall_forall in Hb. apply Hb.
      rewrite <- (firstn_skipn (bb_ibyte b) out). apply in_or_app. right.
      rewrite <- (firstn_skipn (n / 8) (skipn (bb_ibyte b) out)). apply in_or_app. now left. }
    assert (Er : bits_of_bytes r = firstn (8 * (n / 8)) (skipn (q_pos q) (bits_of_bytes out))).
    { unfold r. rewrite bob_firstn, bob_skipn. do 2 f_equal. lia. }
    destruct (Nat.eqb_spec (n mod 8) 0) as [Em|Em].
    + cbn [bind]. apply Fin; try assumption; try lia. rewrite Er, <- El. unfold pad_len. rewrite Em.
      change ((8 - 0) mod 8)%nat with 0%nat. cbn [repeat]. rewrite app_nil_r. f_equal. lia.
    + destruct (pynth_ok out (bb_ibyte b + n / 8)) as (a & x & s & Eout & Hla & Ex); [lia|]. rewrite Ex. cbn [bind].
      assert (Hx : x < 256) by (rewrite Eout in Hb; now apply is_bytes_mid in Hb).
      rewrite E0 in Fin |- *. cbn [Nat.add] in Fin |- *. rewrite (Nat.mod_mod n) by lia. apply Fin; try lia.
      * apply is_bytes_snoc. split; [exact Hrb|]. apply oct_mask_lt; [exact Hx|lia].
      * rewrite bob_snoc, Er, oct_mask by (assumption || lia). rewrite <- El.
        assert (ES : forall Z : list bool, firstn n Z = firstn (8 * (n / 8)) Z ++ firstn (n mod 8) (skipn (8 * (n / 8)) Z))
          by (intros Z; rewrite <- firstn_add; f_equal; lia).
        rewrite ES, <- !app_assoc. f_equal. rewrite <- skipn_add.
        replace (q_pos q + 8 * (n / 8))%nat with (8 * (bb_ibyte b + n / 8))%nat by lia. rewrite Eout, octet_at by exact Hla.
        rewrite firstn_app, bits_of_length. replace (n mod 8 - 8)%nat with 0%nat by lia. rewrite firstn_O, app_nil_r. do 2 f_equal.
        symmetry. apply pad_small; lia.
  - destruct (get_loop_ok out Hb n (bb_ibyte b) (bb_iboff b) 0 0%nat [] n []) as (ib' & io' & cur' & co' & ret' & h' & G1 & G2 & G3 & G4 & G5 & G6 & G7 & G8 & G9); try lia; try reflexivity; try constructor.
    rewrite G1. cbn [bind]. cbn [app] in G8. change (bits_of_bytes []) with (@nil bool) in G8. cbn [app] in G8. rewrite <- Hp, El in G8.
    assert (Hlen : (n = 8 * length ret' + co')%nat).
    { apply (f_equal (@length bool)) in G8. rewrite app_length, bits_of_bytes_length in G8. lia. }
    destruct (Nat.eqb_spec co' 0) as [Ec|Ec].
    + apply Fin; try assumption; try lia. destruct h'; [|cbn in G6; lia]. rewrite app_nil_r in G8. rewrite G8.
      unfold pad_len. rewrite (mod_of n (length ret') 0) by lia. cbn [repeat Nat.modulo Nat.divmod fst snd Nat.sub]. now rewrite app_nil_r.
    + apply Fin; try assumption; try lia.
      * apply is_bytes_snoc. auto.
      * rewrite bob_snoc, G7, app_assoc, G8. do 2 f_equal. symmetry. apply pad_small; [lia|]. apply (mod_of n (length ret')); lia.
Qed.

(** ** Padding *)

Lemma pad_len_pad n : pad_len (n + pad_len n) = 0%nat.
Proof.
  unfold pad_len. pose proof (Nat.mod_upper_bound n 8 ltac:(lia)). pose proof (Nat.div_mod n 8 ltac:(lia)).
  destruct (Nat.eq_dec (n mod 8) 0) as [E|E].
  - rewrite E. change ((8 - 0) mod 8)%nat with 0%nat. rewrite Nat.add_0_r, E. reflexivity.
  - rewrite (Nat.mod_small (8 - n mod 8)) by lia. rewrite (mod_of (n + (8 - n mod 8)) (n / 8 + 1) 0) by lia. reflexivity.
Qed.

Lemma pad_ok b q : rep b q -> rep (bb_pad b) (q_pad q).
Proof.
  intros (Hb & HB & Hk & Hp & Hi). unfold bb_pad, q_pad. fold (pad_len (length (q_bits q))). set (W := q_bits q) in *.
  assert (E : pad_len (length (W ++ repeat false (pad_len (length W)))) = 0%nat) by (rewrite app_length, repeat_length; apply pad_len_pad).
  assert (Em : (length (W ++ repeat false (pad_len (length W))) mod 8 = 0)%nat).
  { unfold pad_len in E at 1. pose proof (Nat.mod_upper_bound (length (W ++ repeat false (pad_len (length W)))) 8 ltac:(lia)).
    destruct (Nat.eq_dec (length (W ++ repeat false (pad_len (length W))) mod 8) 0); [assumption|]. rewrite Nat.mod_small in E by lia. lia. }
  assert (Hmod : (bb_boff b mod 8 = bb_boff b)%nat) by (rewrite Hk; apply Nat.mod_mod; lia). rewrite Hmod.
  destruct (Nat.eqb_spec (bb_boff b) 0) as [E0|E0]; (split; [exact Hb|]); cbn [q_bits q_pos bb_out bb_boff bb_ibyte bb_iboff];
    rewrite E; cbn [repeat]; rewrite app_nil_r; repeat split; try assumption; rewrite Em; [exact E0|reflexivity].
Qed.

Lemma advance_ok b q : rep b q -> rep (bb_advance b) (q_advance q).
Proof.
  intros (Hb & HB & Hk & Hp & Hi). unfold bb_advance, q_advance. rewrite Hp. rewrite (mod_of _ (bb_ibyte b) (bb_iboff b) eq_refl Hi).
  destruct (Nat.eqb_spec ((8 - bb_iboff b) mod 8) 0) as [E|E].
  - rewrite E, Nat.add_0_r, <- Hp. repeat split; assumption.
  - assert (Ho : (bb_iboff b <> 0)%nat) by (intros E0; rewrite E0 in E; now apply E).
    rewrite (Nat.mod_small (8 - _)) by lia. replace (bb_iboff b + (8 - bb_iboff b))%nat with 8%nat by lia. change (8 mod 8)%nat with 0%nat.
    unfold rep. cbn [q_bits q_pos bb_out bb_boff bb_ibyte bb_iboff]. repeat split; try assumption; lia.
Qed.
