(** * Integers and literal strings of the http2 codec: read after write. *)
From Coq Require Import List NArith ZArith Bool Lia ZifyN.
From Verif Require Import PyBase NBits HTTP2_Model.
Import ListNotations.
Open Scope N_scope.
Open Scope py_scope.

Ltac Zify.zify_post_hook ::= Z.div_mod_to_equations.

Lemma pack_B_ok n : n < 256 -> pack_B n = Ok [n].
Proof. intros H. unfold pack_B. now rewrite (proj2 (N.ltb_lt _ _) H). Qed.

Lemma write_digits_ok fuel : forall v, 0 < v -> v < 2 ^ N.of_nat fuel ->
  exists b ds, write_digits fuel v = Ok (b :: ds) /\ b < 256 /\ Forall (fun c => c < 256) ds /\
    forall value shift rest,
      read_digits b value shift (ds ++ rest) = Ok (value + N.shiftl v shift, rest).
Proof.
  induction fuel as [|f IH]; intros v Hv Hf.
  { simpl in Hf. lia. }
  cbn [write_digits]. destruct (N.eqb_spec v 0); [lia|].
  rewrite shiftr7, land127.
  destruct (N.ltb_spec 0 (v / 128)) as [Hq|Hq].
  - rewrite lor128 by lia. rewrite pack_B_ok by lia. cbn [bind].
    destruct (IH (v / 128)) as (b & ds & E & Hb & Hds & R).
    + exact Hq.
    + rewrite Nat2N.inj_succ, N.pow_succ_r' in Hf. lia.
    + rewrite E. cbn [bind]. exists (128 + v mod 128), (b :: ds).
      split; [reflexivity|]. split; [lia|]. split; [constructor; auto|].
      intros value shift rest. cbn [app read_digits].
      rewrite land128_high by lia. change (0 <? 128) with true. cbv iota.
      rewrite R, land127. f_equal. f_equal.
      rewrite !N.shiftl_mul_pow2, N.pow_add_r.
      replace ((128 + v mod 128) mod 128) with (v mod 128) by lia.
      change (2 ^ 7) with 128.
      transitivity (value + (128 * (v / 128) + v mod 128) * 2 ^ shift); [ring|].
      now rewrite <- N.div_mod by lia.
  - assert (Hq0 : v / 128 = 0) by lia. rewrite Hq0.
    rewrite N.lor_0_l, pack_B_ok by lia. cbn [bind].
    assert (E : write_digits f 0 = Ok []) by (destruct f; reflexivity).
    rewrite E. cbn [bind app].
    exists (v mod 128), []. split; [reflexivity|]. split; [lia|]. split; [constructor|].
    intros value shift rest. cbn [app].
    replace (v mod 128) with v by lia.
    assert (H128 : v < 128) by lia.
    destruct rest; cbn [read_digits]; rewrite land128_low by auto; cbn [N.ltb N.compare];
      rewrite land127, N.mod_small by auto; reflexivity.
Qed.

Definition prefix_ok (p : N) : Prop := p <= 8.

Lemma MAX_VALUES_le8 p : p <= 8 -> MAX_VALUES p = Ok (N.ones p).
Proof.
  intros H. destruct (N.eq_dec p 0) as [->|]; [reflexivity|].
  assert (Hp : In p [1;2;3;4;5;6;7;8]) by (simpl; lia).
  simpl in Hp. repeat destruct Hp as [<-|Hp]; try reflexivity. contradiction.
Qed.

(** The reader as it is used in the code: with prefix 0 no byte is read
    first, otherwise the first byte carries the flags. *)
Definition read_int_at (p : N) (s : str) : res (N * str) :=
  if p =? 0 then read_integer 0 0 s
  else let* (b, s) := read_next_byte s in read_integer b p s.

Lemma read_digits_zero value shift rest :
  read_digits 0 value shift rest = Ok (value, rest).
Proof.
  destruct rest; cbn [read_digits]; change (N.land 0 127) with 0; change (N.land 0 128) with 0;
    cbn [N.ltb N.compare]; rewrite N.shiftl_0_l, N.add_0_r; reflexivity.
Qed.

Lemma ones_lt p : p <= 8 -> N.ones p < 256.
Proof.
  intros H. rewrite N.ones_equiv. assert (2 ^ p <= 2 ^ 8) by (apply N.pow_le_mono_r; lia).
  change (2 ^ 8) with 256 in *. assert (0 < 2 ^ p) by (apply N.neq_0_lt_0, N.pow_nonzero; lia). lia.
Qed.

Lemma write_read_integer p byte v : p <= 8 -> byte + N.ones p < 256 -> byte mod 2 ^ p = 0 ->
  exists bs, write_integer byte p v = Ok bs /\ is_bytes bs /\ (bs <> []) /\
    (0 < p -> exists b bs', bs = b :: bs' /\ byte <= b <= byte + N.ones p) /\
    forall rest, read_int_at p (bs ++ rest) = Ok (v, rest).
Proof.
  intros Hp Hb Hz. unfold write_integer. rewrite MAX_VALUES_le8 by auto. cbn [bind].
  assert (Hpow : 0 < 2 ^ p) by (apply N.neq_0_lt_0, N.pow_nonzero; lia).
  assert (Hones : N.ones p = 2 ^ p - 1) by (rewrite N.ones_equiv; lia).
  destruct (N.ltb_spec v (N.ones p)) as [Hlt|Hge].
  - destruct (N.leb_spec p 8) as [_|]; [|lia].
    rewrite pack_B_ok by lia.
    exists [byte + v]. split; [reflexivity|]. split; [constructor; [lia|constructor]|].
    split; [discriminate|].
    split; [intros _; exists (byte + v), []; split; [reflexivity|lia]|].
    intros rest. unfold read_int_at.
    destruct (N.eqb_spec p 0) as [->|Hp0].
    { simpl in Hlt. lia. }
    cbn [app read_next_byte bind]. unfold read_integer.
    rewrite MAX_VALUES_le8 by auto. cbn [bind].
    destruct (N.leb_spec p 8) as [_|]; [|lia]. cbn [bind].
    rewrite N.land_ones.
    rewrite <- N.add_mod_idemp_l, Hz, N.add_0_l by lia.
    rewrite N.mod_small by lia.
    destruct (N.eqb_spec v (N.ones p)); [lia|]. reflexivity.
  - set (w := v - N.ones p).
    assert (Hread : forall b rest', b mod 2 ^ p = N.ones p ->
        read_integer b p rest' = let* (b, s) := read_next_byte rest' in read_digits b (N.ones p) 0 s).
    { intros b rest' Eb. unfold read_integer. rewrite MAX_VALUES_le8 by auto. cbn [bind].
      destruct (N.leb_spec p 8) as [_|]; [|lia]. cbn [bind].
      rewrite N.land_ones, Eb. destruct (N.eqb_spec (N.ones p) (N.ones p)); [|lia]. reflexivity. }
    assert (Htail : exists ds, (if w =? 0 then let* b1 := pack_B 0 in Ok b1
                                else write_digits (N.to_nat (N.size w)) w) = Ok ds /\ is_bytes ds /\ ds <> [] /\
       forall rest, (let* (b, s) := read_next_byte (ds ++ rest) in read_digits b (N.ones p) 0 s) = Ok (v, rest)).
    { destruct (N.eqb_spec w 0) as [Hw|Hw].
      - rewrite pack_B_ok by lia. exists [0]. split; [reflexivity|].
        split; [constructor; [lia|constructor]|]. split; [discriminate|].
        intros rest. cbn [app read_next_byte bind]. rewrite read_digits_zero. f_equal. f_equal. lia.
      - destruct (write_digits_ok (N.to_nat (N.size w)) w) as (b & ds & E & Hbb & Hds & R);
          [lia|apply size_nat_bound|].
        exists (b :: ds). split; [exact E|]. split; [constructor; auto|]. split; [discriminate|].
        intros rest. cbn [app read_next_byte bind]. rewrite R. f_equal. f_equal.
        rewrite N.shiftl_0_r. lia. }
    destruct Htail as (ds & E & Hbytes & Hne & R).
    destruct (N.ltb_spec 0 p) as [Hp0|Hp0].
    + rewrite pack_B_ok by lia. cbn [bind]. exists ([byte + N.ones p] ++ ds).
      split.
      { destruct (N.eqb_spec w 0).
        - destruct (pack_B 0); cbn [bind] in *; [injection E as ->; reflexivity|discriminate].
        - rewrite E. reflexivity. }
      split; [constructor; [lia|exact Hbytes]|]. split; [discriminate|].
      split; [intros _; exists (byte + N.ones p), ds; split; [reflexivity|lia]|].
      intros rest. unfold read_int_at. destruct (N.eqb_spec p 0); [lia|].
      cbn [app read_next_byte bind]. rewrite Hread; [apply R|].
      rewrite <- N.add_mod_idemp_l, Hz, N.add_0_l by lia. rewrite N.mod_small; lia.
    + assert (p = 0) by lia. subst p. cbn [bind app].
      exists ds. split.
      { destruct (N.eqb_spec w 0).
        - destruct (pack_B 0); cbn [bind] in *; [injection E as ->; reflexivity|discriminate].
        - rewrite E. reflexivity. }
      split; [exact Hbytes|]. split; [exact Hne|]. split; [lia|].
      intros rest. unfold read_int_at. cbn [N.eqb].
      rewrite Hread; [apply R|]. reflexivity.
Qed.

Lemma write_read_literal v : exists bs, write_literal_string v = Ok bs /\
  (is_bytes v -> is_bytes bs) /\
  forall rest, read_literal_string (bs ++ rest) = Ok (v, rest).
Proof.
  unfold write_literal_string.
  destruct (write_read_integer 0 0 (lenN v)) as (bs & E & Hb & _ & _ & R);
    [lia|reflexivity|reflexivity|].
  rewrite E. cbn [bind]. exists (bs ++ v). split; [reflexivity|].
  split; [intros Hv; apply Forall_app; auto|].
  intros rest. unfold read_literal_string.
  specialize (R (v ++ rest)). unfold read_int_at in R. cbn [N.eqb] in R.
  rewrite <- app_assoc, R. cbn [bind]. now rewrite takeN_app, dropN_app.
Qed.
