(** * Arithmetic facts about bit operations on [N]. *)
From Coq Require Import NArith Lia ZArith.
Open Scope N_scope.

Lemma testbit_high b k i : b < 2 ^ k -> k <= i -> N.testbit b i = false.
Proof.
  intros H Hi. destruct (N.eq_dec b 0) as [->|Hb]; [apply N.bits_0|].
  apply N.bits_above_log2. apply N.log2_lt_pow2; [lia|].
  eapply N.lt_le_trans; [exact H|]. apply N.pow_le_mono_r; lia.
Qed.

Lemma land_shift_low a b k : b < 2 ^ k -> N.land (N.shiftl a k) b = 0.
Proof.
  intros H. apply N.bits_inj. intros i. rewrite N.land_spec, N.bits_0.
  destruct (N.lt_ge_cases i k) as [Hi|Hi].
  - now rewrite N.shiftl_spec_low.
  - rewrite (testbit_high b k i); auto. apply Bool.andb_false_r.
Qed.

Lemma lor_shift_low a b k : b < 2 ^ k -> N.lor (N.shiftl a k) b = a * 2 ^ k + b.
Proof.
  intros H. rewrite <- N.lxor_lor by now apply land_shift_low.
  rewrite <- N.add_nocarry_lxor by now apply land_shift_low.
  now rewrite N.shiftl_mul_pow2.
Qed.

Lemma lor_high_low a b k : b < 2 ^ k -> N.lor (a * 2 ^ k) b = a * 2 ^ k + b.
Proof. intros H. rewrite <- N.shiftl_mul_pow2. now rewrite lor_shift_low, N.shiftl_mul_pow2. Qed.

Lemma land_ones_mod a k m : m = N.ones k -> N.land a m = a mod 2 ^ k.
Proof. intros ->. apply N.land_ones. Qed.

Lemma land127 a : N.land a 127 = a mod 128.
Proof. apply (land_ones_mod a 7). reflexivity. Qed.
Lemma land255 a : N.land a 255 = a mod 256.
Proof. apply (land_ones_mod a 8). reflexivity. Qed.
Lemma shiftr7 a : N.shiftr a 7 = a / 128.
Proof. apply (N.shiftr_div_pow2 a 7). Qed.
Lemma shiftr8 a : N.shiftr a 8 = a / 256.
Proof. apply (N.shiftr_div_pow2 a 8). Qed.

(** Bit 7 of a byte. *)
Lemma land128_low a : a < 128 -> N.land a 128 = 0.
Proof. intros H. rewrite N.land_comm. apply (land_shift_low 1 a 7). exact H. Qed.

Lemma land128_high a : a < 128 -> N.land (128 + a) 128 = 128.
Proof.
  intros H. replace (128 + a) with (N.lor 128 a).
  - rewrite N.land_lor_distr_l, (land128_low a) by auto. reflexivity.
  - pose proof (lor_high_low 1 a 7) as E. change (1 * 2 ^ 7) with 128 in E. auto.
Qed.

Lemma lor128 a : a < 128 -> N.lor 128 a = 128 + a.
Proof. intros H. pose proof (lor_high_low 1 a 7) as E. change (1 * 2 ^ 7) with 128 in E. auto. Qed.

Lemma size_nat_bound v : v < 2 ^ N.of_nat (N.to_nat (N.size v)).
Proof. rewrite N2Nat.id. apply N.size_gt. Qed.
