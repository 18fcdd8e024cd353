(** * Writing to and reading from a bit bucket, as lists of bits.

    [wr b W]: the bucket was written the bits [W] and nothing was read.
    [rd b A R]: the bits [A] have been read and the bits [R] are still there. *)
From Coq Require Import List NArith Bool Arith Lia ZifyN ZifyNat.
From Verif Require Import PyBase NBits Bits BB_Model BB_Spec BB_Proofs.
Import ListNotations.
Open Scope N_scope.
Open Scope py_scope.

Definition rd (b : bb) (A R : list bool) : Prop := rep b (mk_q (A ++ R) (length A)).
Definition wr (b : bb) (W : list bool) : Prop := rd b [] W.

Lemma wr_new : wr bb_new [].
Proof. apply rep_new. Qed.

Lemma rd_store b A R o n : rd b A R -> is_bytes o -> length o = bytes_for n ->
  exists b', bb_store b o n = Ok b' /\ rd b' A (R ++ firstn n (bits_of_bytes o)).
Proof.
  intros H Ho Hl. destruct (store_ok b _ o n H Ho Hl) as (b' & E & H'). exists b'. split; [exact E|].
  unfold rd. unfold q_store in H'. cbn [q_bits q_pos] in H'. now rewrite app_assoc.
Qed.

Lemma rd_pad b A R : rd b A R -> rd (bb_pad b) A (R ++ repeat false (pad_len (length A + length R))).
Proof.
  intros H. apply pad_ok in H. unfold q_pad in H. cbn [q_bits q_pos] in H. unfold rd. rewrite app_assoc.
  unfold pad_len. now rewrite app_length in H.
Qed.

Lemma rd_get b A x R : rd b A (x ++ R) -> exists b', bb_get b (length x) = Ok (bytes_of_bits x, b') /\ rd b' (A ++ x) R.
Proof.
  intros H. pose proof (get_ok b _ (length x) H) as G. unfold q_get in G. cbn [q_bits q_pos] in G. rewrite !app_length in G.
  destruct (Nat.leb_spec (length A + length x) (length A + (length x + length R))) as [L|L]; [|lia].
  rewrite skipn_app, skipn_all, Nat.sub_diag in G. cbn [app skipn] in G.
  rewrite firstn_app, Nat.sub_diag, firstn_all, firstn_O, app_nil_r in G.
  destruct G as (b' & E & H'). exists b'. split; [exact E|]. unfold rd. now rewrite <- app_assoc, app_length.
Qed.

Lemma rd_get_short b A R n : rd b A R -> (length R < n)%nat -> bb_get b n = Err StandardError.
Proof.
  intros H Hn. pose proof (get_ok b _ n H) as G. unfold q_get in G. cbn [q_bits q_pos] in G. rewrite app_length in G.
  destruct (Nat.leb_spec (length A + n) (length A + length R)) as [L|L]; [lia|exact G].
Qed.

Lemma rd_advance b A z R : length z = pad_len (length A) -> rd b A (z ++ R) -> rd (bb_advance b) (A ++ z) R.
Proof.
  intros Hz H. apply advance_ok in H. unfold q_advance in H. cbn [q_bits q_pos] in H.
  unfold rd. rewrite <- app_assoc, app_length, Hz. exact H.
Qed.

Lemma rd_num b A R : rd b A R -> bb_num b = (length A + length R)%nat.
Proof. intros H. rewrite (rep_num _ _ H). cbn [q_bits]. apply app_length. Qed.

Lemma rd_pos b A R : rd b A R -> (8 * bb_ibyte b + bb_iboff b = length A)%nat.
Proof. intros (_ & _ & _ & H & _). symmetry. exact H. Qed.

Lemma rd_consumed b A R : rd b A R -> bb_all_consumed b = match R with [] => true | _ => false end.
Proof.
  intros H. unfold bb_all_consumed. rewrite (rd_num _ _ _ H), (rd_pos _ _ _ H).
  destruct R as [|x R]; cbn [length]; [apply Nat.leb_le; lia|apply Nat.leb_gt; lia].
Qed.

(** The octets of a bucket. *)
Lemma rd_out b A R : rd b A R -> bb_out b = bytes_of_bits (A ++ R) /\ is_bytes (bb_out b).
Proof.
  intros (Hb & E & _). cbn [q_bits] in E. split; [|exact Hb]. now apply bytes_of_bits_unique.
Qed.

(** ** Octets of a bit string *)

Lemma firstn_bytes_of_bits s : firstn (length s) (bits_of_bytes (bytes_of_bits s)) = s.
Proof. destruct (bytes_of_bits_spec s) as [E _]. now rewrite E, firstn_app, Nat.sub_diag, firstn_all, firstn_O, app_nil_r. Qed.

Lemma bytes_of_bits_bytes s : is_bytes (bytes_of_bits s).
Proof. apply bytes_of_bits_spec. Qed.

Lemma bytes_of_bits_len s : length (bytes_of_bits s) = bytes_for (length s).
Proof.
  destruct (bytes_of_bits_spec s) as [E _]. apply (f_equal (@length bool)) in E.
  rewrite bits_of_bytes_length, app_length, repeat_length in E. unfold pad_len in E. unfold bytes_for.
  pose proof (Nat.div_mod (length s) 8 ltac:(lia)). pose proof (Nat.mod_upper_bound (length s) 8 ltac:(lia)).
  destruct (Nat.eq_dec (length s mod 8) 0) as [Z|Z].
  - rewrite Z in E. change ((8 - 0) mod 8)%nat with 0%nat in E. apply Nat.div_unique with (r := 7%nat); lia.
  - rewrite (Nat.mod_small (8 - _)) in E by lia.
    apply Nat.div_unique with (r := (length s + 7 - 8 * length (bytes_of_bits s))%nat); lia.
Qed.

Lemma pynth_first x R : (0 < length x <= 8)%nat -> pynth (bytes_of_bits x ++ R) 0 = Ok (val_of (x ++ repeat false (8 - length x))).
Proof.
  intros H. destruct (bytes_of_bits_spec x) as [E Hb]. destruct (bytes_of_bits x) as [|c o] eqn:Ex.
  { apply (f_equal (@length bool)) in E. rewrite app_length in E. cbn [bits_of_bytes flat_map length] in E. lia. }
  cbn [app]. unfold pynth. cbn [nth_error]. f_equal. rewrite bob_cons in E. inversion Hb; subst.
  apply (f_equal (firstn 8)) in E. rewrite firstn_app, bits_of_length, Nat.sub_diag, firstn_O, app_nil_r in E.
  rewrite firstn_all2 in E by (rewrite bits_of_length; lia).
  assert (Hp : pad_len (length x) = (8 - length x)%nat).
  { unfold pad_len. destruct (Nat.eq_dec (length x) 8) as [->|N8]; [reflexivity|].
    rewrite (Nat.mod_small (length x)) by lia. apply Nat.mod_small. lia. }
  rewrite Hp in E. rewrite firstn_all2 in E by (rewrite app_length, repeat_length; lia).
  rewrite <- E. symmetry. apply val_of_bits_small. exact H2.
Qed.

(** ** Fixed widths *)

Lemma rd_store_bits b A R s : rd b A R -> exists b', bb_store b (bytes_of_bits s) (length s) = Ok b' /\ rd b' A (R ++ s).
Proof.
  intros H. destruct (rd_store b A R (bytes_of_bits s) (length s) H) as (b' & E & H');
    [apply bytes_of_bits_bytes|apply bytes_of_bits_len|]. exists b'. split; [exact E|]. now rewrite firstn_bytes_of_bits in H'.
Qed.

Lemma bits_of_shl n k v : v < 2 ^ N.of_nat n -> firstn n (bits_of (n + k) (N.shiftl v (N.of_nat k))) = bits_of n v.
Proof.
  intros Hv. induction n as [|n IH] in v, Hv |- *; [reflexivity|].
  cbn [Nat.add bits_of firstn]. rewrite N.shiftl_spec_high by lia. f_equal; [f_equal; lia|].
  assert (G : forall n v, firstn n (bits_of (n + k) (N.shiftl v (N.of_nat k))) = bits_of n v).
  { clear. induction n as [|n IH]; intros v; [reflexivity|]. cbn [Nat.add bits_of firstn].
    rewrite N.shiftl_spec_high by lia. f_equal; [f_equal; lia|apply IH]. }
  apply G.
Qed.

Lemma rd_store4 b A R v : rd b A R -> v < 16 -> exists b', bb_store4 b v = Ok b' /\ rd b' A (R ++ bits_of 4 v).
Proof.
  intros H Hv. unfold bb_store4.
  assert (E15 : N.land v 15 = v) by (change 15 with (N.ones 4); rewrite N.land_ones; apply N.mod_small; exact Hv).
  rewrite E15. destruct (rd_store b A R [N.shiftl v 4] 4 H) as (b' & E & H').
  - repeat constructor. rewrite N.shiftl_mul_pow2. change (2 ^ 4) with 16. lia.
  - reflexivity.
  - exists b'. split; [exact E|]. rewrite bob_cons, firstn_app, bits_of_length in H'. change (4 - 8)%nat with 0%nat in H'.
    rewrite firstn_O, app_nil_r in H'. change (bits_of 8 (N.shiftl v 4)) with (bits_of (4 + 4) (N.shiftl v (N.of_nat 4))) in H'.
    rewrite bits_of_shl in H' by exact Hv. exact H'.
Qed.

Lemma rd_get4 b A R v : v < 16 -> rd b A (bits_of 4 v ++ R) -> exists b', bb_get4 b = Ok (v, b') /\ rd b' (A ++ bits_of 4 v) R.
Proof.
  intros Hv H. destruct (rd_get _ _ _ _ H) as (b' & E & H'). rewrite bits_of_length in E. exists b'. split; [|exact H'].
  unfold bb_get4. rewrite E. cbn [bind]. rewrite <- (app_nil_r (bytes_of_bits _)), pynth_first by (rewrite bits_of_length; lia).
  cbn [bind]. do 2 f_equal. rewrite bits_of_length. change (8 - 4)%nat with 4%nat.
  rewrite val_of_app, val_of_bits_small by exact Hv. change (lenN (repeat false 4)) with 4. change (val_of (repeat false 4)) with 0.
  rewrite N.add_0_r, N.shiftr_div_pow2. apply N.div_mul. discriminate.
Qed.

Lemma rd_store8 b A R v : rd b A R -> v < 256 -> exists b', bb_store8 b v = Ok b' /\ rd b' A (R ++ bits_of 8 v).
Proof.
  intros H Hv. unfold bb_store8, pack_B. destruct (N.ltb_spec v 256); [|lia]. cbn [bind].
  destruct (rd_store b A R [v] 8 H) as (b' & E & H'); [repeat constructor; exact Hv|reflexivity|].
  exists b'. split; [exact E|]. rewrite bob_cons in H'. cbn [bits_of_bytes flat_map] in H'. rewrite app_nil_r in H'.
  rewrite firstn_all2 in H' by (rewrite bits_of_length; lia). exact H'.
Qed.

Lemma bytes_of_bits_octet v : v < 256 -> bytes_of_bits (bits_of 8 v) = [v].
Proof.
  intros H. replace (bits_of 8 v) with (bits_of_bytes [v]) by (rewrite bob_cons; cbn [bits_of_bytes flat_map]; apply app_nil_r).
  apply bytes_of_bits_of_bytes. repeat constructor. exact H.
Qed.

Lemma rd_get8 b A R v : v < 256 -> rd b A (bits_of 8 v ++ R) -> exists b', bb_get8 b = Ok (v, b') /\ rd b' (A ++ bits_of 8 v) R.
Proof.
  intros Hv H. destruct (rd_get _ _ _ _ H) as (b' & E & H'). rewrite bits_of_length in E. exists b'. split; [|exact H'].
  unfold bb_get8. rewrite E, bytes_of_bits_octet by exact Hv. reflexivity.
Qed.

(** Two octets. *)
Definition o16 (v : N) : list N := [v / 256; v mod 256].
Lemma pack_H_o16 v : v < 65536 -> pack_H v = Ok (o16 v).
Proof.
  intros H. unfold pack_H, o16. destruct (N.ltb_spec v 65536); [|lia].
  rewrite N.shiftr_div_pow2. change 255 with (N.ones 8). rewrite N.land_ones. reflexivity.
Qed.
Lemma o16_bytes v : v < 65536 -> is_bytes (o16 v).
Proof. intros H. repeat constructor; [apply N.div_lt_upper_bound; lia|apply N.mod_lt; lia]. Qed.

Lemma rd_store16 b A R v : rd b A R -> v < 65536 -> exists b', bb_store16 b v = Ok b' /\ rd b' A (R ++ bits_of_bytes (o16 v)).
Proof.
  intros H Hv. unfold bb_store16. rewrite pack_H_o16 by exact Hv. cbn [bind].
  destruct (rd_store b A R (o16 v) 16 H) as (b' & E & H'); [now apply o16_bytes|reflexivity|].
  exists b'. split; [exact E|]. rewrite firstn_all2 in H' by (rewrite bits_of_bytes_length; cbn; lia). exact H'.
Qed.

Lemma rd_get_octets b A R s n : is_bytes s -> n = (8 * length s)%nat -> rd b A (bits_of_bytes s ++ R) ->
  exists b', bb_get b n = Ok (s, b') /\ rd b' (A ++ bits_of_bytes s) R.
Proof.
  intros Hs Hn H. destruct (rd_get _ _ _ _ H) as (b' & E & H'). rewrite bits_of_bytes_length, <- Hn in E.
  rewrite bytes_of_bits_of_bytes in E by exact Hs. eauto.
Qed.

Lemma rd_get16 b A R v : v < 65536 -> rd b A (bits_of_bytes (o16 v) ++ R) -> exists b', bb_get16 b = Ok (v, b') /\ rd b' (A ++ bits_of_bytes (o16 v)) R.
Proof.
  intros Hv H. destruct (rd_get_octets b A R (o16 v) 16 (o16_bytes v Hv) eq_refl H) as (b' & E & H'). exists b'. split; [|exact H'].
  unfold bb_get16. rewrite E. unfold o16, pynth. cbn [nth_error bind]. do 2 f_equal.
  pose proof (N.div_mod v 256 ltac:(lia)). lia.
Qed.

(** Four octets. *)
Definition o32 (v : N) : list N := [v / 2 ^ 24; (v / 2 ^ 16) mod 256; (v / 2 ^ 8) mod 256; v mod 256].
Lemma pack_L_o32 v : v < 2 ^ 32 -> pack_L v = Ok (o32 v).
Proof.
  intros H. unfold pack_L, o32. destruct (N.ltb_spec v (2 ^ 32)); [|lia].
  rewrite !N.shiftr_div_pow2. change 255 with (N.ones 8). rewrite !N.land_ones. reflexivity.
Qed.
Lemma o32_bytes v : v < 2 ^ 32 -> is_bytes (o32 v).
Proof. intros H. repeat constructor; try (apply N.mod_lt; lia). apply N.div_lt_upper_bound; [discriminate|exact H]. Qed.

Lemma rd_store32 b A R v : rd b A R -> v < 2 ^ 32 -> exists b', bb_store32 b v = Ok b' /\ rd b' A (R ++ bits_of_bytes (o32 v)).
Proof.
  intros H Hv. unfold bb_store32. rewrite pack_L_o32 by exact Hv. cbn [bind].
  destruct (rd_store b A R (o32 v) 32 H) as (b' & E & H'); [now apply o32_bytes|reflexivity|].
  exists b'. split; [exact E|]. rewrite firstn_all2 in H' by (rewrite bits_of_bytes_length; cbn; lia). exact H'.
Qed.

Lemma o32_value v : v / 2 ^ 24 * 2 ^ 24 + (v / 2 ^ 16) mod 256 * 2 ^ 16 + (v / 2 ^ 8) mod 256 * 2 ^ 8 + v mod 256 = v.
Proof.
  change (2 ^ 24) with (2 ^ 8 * (2 ^ 8 * 2 ^ 8)). change (2 ^ 16) with (2 ^ 8 * 2 ^ 8). change (2 ^ 8) with 256.
  rewrite <- !N.div_div by lia. set (v1 := v / 256). set (v2 := v1 / 256). set (v3 := v2 / 256).
  pose proof (N.div_mod v 256 ltac:(lia)) as H. pose proof (N.div_mod v1 256 ltac:(lia)) as H0. pose proof (N.div_mod v2 256 ltac:(lia)) as H1.
  fold v1 in H. fold v2 in H0. fold v3 in H1. lia.
Qed.

Lemma rd_get32 b A R v : v < 2 ^ 32 -> rd b A (bits_of_bytes (o32 v) ++ R) -> exists b', bb_get32 b = Ok (v, b') /\ rd b' (A ++ bits_of_bytes (o32 v)) R.
Proof.
  intros Hv H. destruct (rd_get_octets b A R (o32 v) 32 (o32_bytes v Hv) eq_refl H) as (b' & E & H'). exists b'. split; [|exact H'].
  unfold bb_get32. rewrite E. unfold o32, pynth. cbn [nth_error bind]. do 2 f_equal. apply o32_value.
Qed.

(** One bit. *)
Lemma rd_bit1 b A R x : rd b A (x :: R) -> exists r b', bb_get b 1 = Ok (r, b') /\ pynth r 0 = Ok (val_of (x :: repeat false 7)) /\ rd b' (A ++ [x]) R.
Proof.
  intros H. destruct (rd_get b A [x] R H) as (b' & E & H'). exists (bytes_of_bits [x]), b'. split; [exact E|]. split; [|exact H'].
  destruct x; reflexivity.
Qed.
