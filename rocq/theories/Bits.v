(** * Bit strings (most significant bit first) and octets. *)
From Coq Require Import List NArith Bool Lia Arith.
From Verif Require Import PyBase NBits.
Import ListNotations.
Open Scope N_scope.

Definition b2n (b : bool) : N := if b then 1 else 0.

(** The [n] low bits of [v]. *)
Fixpoint bits_of (n : nat) (v : N) : list bool :=
  match n with
  | O => []
  | S m => N.testbit v (N.of_nat m) :: bits_of m v
  end.

Fixpoint val_of (l : list bool) : N :=
  match l with
  | [] => 0
  | b :: l' => b2n b * 2 ^ lenN l' + val_of l'
  end.

Definition bits_of_bytes (s : str) : list bool := flat_map (bits_of 8) s.

(** Octets of a bit string, the last one padded with zeros. *)
Fixpoint pack_bits (fuel : nat) (l : list bool) : str :=
  match fuel, l with
  | O, _ => []
  | _, [] => []
  | S f, _ => val_of (firstn 8 (l ++ repeat false 7)) :: pack_bits f (skipn 8 l)
  end.
Definition bytes_of_bits (l : list bool) : str := pack_bits (length l) l.

Lemma bits_of_length n v : length (bits_of n v) = n.
Proof. induction n; cbn; auto. Qed.

Lemma val_of_bound l : val_of l < 2 ^ lenN l.
Proof.
  induction l as [|b l IH]; [cbn; lia|]. cbn [val_of]. unfold lenN in *. cbn [length].
  rewrite Nat2N.inj_succ, N.pow_succ_r'. destruct b; cbn [b2n]; lia.
Qed.

Lemma bits_of_ext n v v' : (forall i, i < N.of_nat n -> N.testbit v i = N.testbit v' i) -> bits_of n v = bits_of n v'.
Proof.
  induction n as [|n IH]; intros H; cbn; [reflexivity|]. f_equal; [apply H; lia|]. apply IH. intros i Hi. apply H. lia.
Qed.

Lemma testbit_add_high b n v i : v < 2 ^ n -> N.testbit (b2n b * 2 ^ n + v) i =
  if i =? n then b else if i <? n then N.testbit v i else false.
Proof.
  intros Hv.
  assert (E : b2n b * 2 ^ n + v = N.lor (N.shiftl (b2n b) n) v).
  { now rewrite lor_shift_low. }
  rewrite E, N.lor_spec. destruct (N.eqb_spec i n) as [->|Hne].
  - rewrite N.shiftl_spec_high', N.sub_diag, (testbit_high v n n Hv), orb_false_r by lia. now destruct b.
  - destruct (N.ltb_spec i n) as [H|H].
    + now rewrite N.shiftl_spec_low.
    + rewrite N.shiftl_spec_high' by exact H. rewrite (testbit_high v n i Hv H), orb_false_r.
      destruct b; cbn [b2n]; [|apply N.bits_0]. apply (testbit_high 1 1); [reflexivity|lia].
Qed.

Lemma bits_of_val l : bits_of (length l) (val_of l) = l.
Proof.
  induction l as [|b l IH]; [reflexivity|]. cbn [length bits_of val_of]. pose proof (val_of_bound l) as Hb. unfold lenN in *. f_equal.
  - rewrite testbit_add_high by exact Hb. now rewrite N.eqb_refl.
  - transitivity (bits_of (length l) (val_of l)); [|exact IH]. apply bits_of_ext. intros i Hi. rewrite testbit_add_high by exact Hb.
    destruct (N.eqb_spec i (N.of_nat (length l))); [lia|]. destruct (N.ltb_spec i (N.of_nat (length l))); [reflexivity|lia].
Qed.

Lemma val_of_bits n v : val_of (bits_of n v) = v mod 2 ^ N.of_nat n.
Proof.
  apply N.bits_inj. intros i. revert i. induction n as [|n IH]; intros i.
  - cbn. now rewrite N.mod_1_r.
  - cbn [bits_of val_of]. unfold lenN in *. rewrite bits_of_length.
    pose proof (val_of_bound (bits_of n v)) as Hb. unfold lenN in Hb. rewrite bits_of_length in Hb.
    rewrite testbit_add_high by exact Hb.
    destruct (N.eqb_spec i (N.of_nat n)) as [->|Hne].
    + rewrite N.mod_pow2_bits_low; [reflexivity|lia].
    + destruct (N.ltb_spec i (N.of_nat n)) as [H|H].
      * rewrite IH, !N.mod_pow2_bits_low; [reflexivity|lia|lia].
      * rewrite N.mod_pow2_bits_high; [reflexivity|lia].
Qed.

Lemma val_of_bits_small n v : v < 2 ^ N.of_nat n -> val_of (bits_of n v) = v.
Proof. intros H. rewrite val_of_bits. now apply N.mod_small. Qed.

Lemma val_of_app a b : val_of (a ++ b) = val_of a * 2 ^ lenN b + val_of b.
Proof.
  induction a as [|x a IH]; cbn [app val_of]; [lia|]. rewrite IH. unfold lenN. rewrite app_length, Nat2N.inj_add, N.pow_add_r. lia.
Qed.

Lemma bits_of_bytes_app a b : bits_of_bytes (a ++ b) = bits_of_bytes a ++ bits_of_bytes b.
Proof. apply flat_map_app. Qed.

Lemma bits_of_bytes_length s : length (bits_of_bytes s) = (8 * length s)%nat.
Proof. induction s as [|x s IH]; [reflexivity|]. unfold bits_of_bytes in *. cbn [flat_map]. rewrite app_length, IH, bits_of_length. cbn [length]. lia. Qed.

(** Number of padding bits. *)
Definition pad_len (n : nat) : nat := ((8 - n mod 8) mod 8)%nat.

Lemma pack_bits_spec fuel : forall l, (length l <= fuel)%nat ->
  bits_of_bytes (pack_bits fuel l) = l ++ repeat false (pad_len (length l)) /\
  is_bytes (pack_bits fuel l).
Proof.
  induction fuel as [|f IH]; intros l Hl.
  - destruct l; [|cbn in Hl; lia]. split; [reflexivity|constructor].
  - destruct l as [|b l0] eqn:El; [split; [reflexivity|constructor]|]. cbn [pack_bits]. rewrite <- El in *.
    assert (H8 : length (firstn 8 (l ++ repeat false 7)) = 8%nat).
    { rewrite firstn_length, app_length, repeat_length. rewrite El. cbn [length]. lia. }
    destruct (IH (skipn 8 l)) as [IH1 IH2]; [rewrite skipn_length, El; cbn [length] in *; rewrite El in Hl; cbn in Hl; lia|].
    split.
    + unfold bits_of_bytes in *. cbn [flat_map]. rewrite IH1.
      replace (bits_of 8 (val_of (firstn 8 (l ++ repeat false 7)))) with (firstn 8 (l ++ repeat false 7))
        by (symmetry; rewrite <- H8 at 1; apply bits_of_val).
      destruct (le_lt_dec 8 (length l)) as [Hge|Hlt].
      * rewrite firstn_app. replace (8 - length l)%nat with 0%nat by lia. rewrite firstn_O, app_nil_r.
        rewrite skipn_length, app_assoc, firstn_skipn. do 2 f_equal.
        unfold pad_len. do 2 f_equal.
        replace (length l) with ((length l - 8) + 1 * 8)%nat at 2 by lia. now rewrite Nat.mod_add.
      * rewrite skipn_all2 by lia. cbn [length app]. change (pad_len 0) with 0%nat. cbn [repeat]. rewrite app_nil_r.
        rewrite firstn_app, firstn_all2 by lia. f_equal.
        assert (Hl1 : (1 <= length l)%nat) by (rewrite El; cbn; lia).
        unfold pad_len. rewrite (Nat.mod_small (length l)) by lia. rewrite Nat.mod_small by lia.
        assert (Hk : forall k m, (k <= m)%nat -> firstn k (repeat false m) = repeat false k).
        { clear. induction k as [|k IHk]; intros [|m] H; cbn; try reflexivity; try lia. rewrite IHk by lia. reflexivity. }
        apply (Hk _ 7%nat). lia.
    + constructor; [|exact IH2]. pose proof (val_of_bound (firstn 8 (l ++ repeat false 7))) as Hb. unfold lenN in Hb. rewrite H8 in Hb. exact Hb.
Qed.

Lemma bytes_of_bits_spec l :
  bits_of_bytes (bytes_of_bits l) = l ++ repeat false (pad_len (length l)) /\ is_bytes (bytes_of_bits l).
Proof. now apply pack_bits_spec. Qed.

Lemma bits_of_bytes_inj a b : is_bytes a -> is_bytes b -> bits_of_bytes a = bits_of_bytes b -> a = b.
Proof.
  revert b. induction a as [|x a IH]; intros [|y b] Ha Hb E; try reflexivity;
    try (apply (f_equal (@length bool)) in E; rewrite !bits_of_bytes_length in E; cbn in E; lia).
  inversion Ha; inversion Hb; subst. unfold bits_of_bytes in E. cbn [flat_map] in E.
  assert (E1 : bits_of 8 x = bits_of 8 y).
  { apply (f_equal (firstn 8)) in E. rewrite !firstn_app, !firstn_all2, !bits_of_length in E by now rewrite bits_of_length.
    change (8 - 8)%nat with 0%nat in E. now rewrite !firstn_O, !app_nil_r in E. }
  rewrite E1 in E. apply app_inv_head in E. f_equal; [|now apply IH].
  rewrite <- (val_of_bits_small 8 x), <- (val_of_bits_small 8 y) by assumption. now rewrite E1.
Qed.

Lemma bytes_of_bits_of_bytes s : is_bytes s -> bytes_of_bits (bits_of_bytes s) = s.
Proof.
  intros H. destruct (bytes_of_bits_spec (bits_of_bytes s)) as [E Hb].
  apply bits_of_bytes_inj; auto. rewrite E, bits_of_bytes_length. unfold pad_len.
  rewrite Nat.mul_comm, Nat.mod_mul by lia. cbn. now rewrite app_nil_r.
Qed.
