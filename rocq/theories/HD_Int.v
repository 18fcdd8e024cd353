(** * Integers and literal strings of the headerdiff codec: read after write. *)
From Coq Require Import String List NArith ZArith Bool Lia ZifyN.
From Verif Require Import PyBase NBits HTTP2_Int PyStr HD_Model.
Import ListNotations.
Open Scope N_scope.
Open Scope py_scope.

Ltac Zify.zify_post_hook ::= Z.div_mod_to_equations.

Lemma hd_digits_ok fuel : forall v, 0 < v -> v < 2 ^ N.of_nat fuel ->
  exists b ds, hd_digits fuel v = Ok (b :: ds) /\ b < 256 /\ Forall (fun c => c < 256) ds /\
    forall value f rest, hd_read_digits b value f (ds ++ rest) = Ok (value + v * f, rest).
Proof.
  induction fuel as [|fl IH]; intros v Hv Hf.
  { simpl in Hf. lia. }
  cbn [hd_digits]. destruct (N.eqb_spec v 0); [lia|].
  replace (v - v / 128 * 128) with (v mod 128) by lia.
  destruct (N.ltb_spec 0 (v / 128)) as [Hq|Hq].
  - rewrite lor128 by lia. rewrite pack_B_ok by lia. cbn [bind].
    destruct (IH (v / 128)) as (b & ds & E & Hb & Hds & R).
    + exact Hq.
    + rewrite Nat2N.inj_succ, N.pow_succ_r' in Hf. lia.
    + rewrite E. cbn [bind]. exists (128 + v mod 128), (b :: ds).
      split; [reflexivity|]. split; [lia|]. split; [constructor; auto|].
      intros value f rest. cbn [app hd_read_digits].
      rewrite land128_high by lia. change (0 <? 128) with true. cbv iota.
      rewrite R, land127. f_equal. f_equal.
      replace ((128 + v mod 128) mod 128) with (v mod 128) by lia.
      transitivity (value + (128 * (v / 128) + v mod 128) * f); [ring|].
      now rewrite <- N.div_mod by lia.
  - assert (Hq0 : v / 128 = 0) by lia. rewrite Hq0.
    rewrite N.lor_0_l, pack_B_ok by lia. cbn [bind].
    assert (E : hd_digits fl 0 = Ok []) by (destruct fl; reflexivity).
    rewrite E. cbn [bind app].
    exists (v mod 128), []. split; [reflexivity|]. split; [lia|]. split; [constructor|].
    intros value f rest. cbn [app].
    replace (v mod 128) with v by lia.
    destruct rest; cbn [hd_read_digits]; rewrite land128_low by lia; reflexivity.
Qed.

(** Width of the prefixes for which the codec has a maximum. *)
Definition small_prefix (p : N) : Prop := In p [0; 4; 5; 6; 8].

Lemma HD_MAX_small p : small_prefix p -> HD_MAX p = Ok (N.ones p) /\ p <= 8.
Proof.
  unfold small_prefix. simpl. intros H.
  repeat destruct H as [<-|H]; try (split; [reflexivity|lia]). contradiction.
Qed.

(** Reading as the code does: the octet that carries the prefix is read first,
    unless the prefix has no bits, when some other octet is passed along. *)
Definition hd_read_at (other p : N) (s : str) : res (N * str) :=
  if p =? 0 then hd_read_int other 0 s
  else let* (b, s) := hd_byte s in hd_read_int b p s.

Lemma lor_flag byte p v : byte mod 2 ^ p = 0 -> v < 2 ^ p -> N.lor byte v = byte + v.
Proof.
  intros Hz Hv. assert (0 < 2 ^ p) by lia.
  assert (E : byte = byte / 2 ^ p * 2 ^ p) by (rewrite (N.div_mod byte (2 ^ p)) at 1 by lia; lia).
  rewrite E at 1. rewrite lor_high_low by auto. now rewrite <- E.
Qed.

Lemma hd_digits_zero value f rest : hd_read_digits 0 value f rest = Ok (value, rest).
Proof. destruct rest; cbn [hd_read_digits]; cbn [N.land N.ltb N.compare]; f_equal; f_equal; lia. Qed.

Lemma hd_write_read_int p byte other v : small_prefix p -> byte + N.ones p < 256 -> byte mod 2 ^ p = 0 ->
  exists bs, hd_write_int byte p v = Ok bs /\ is_bytes bs /\ bs <> [] /\
    (0 < p -> exists b bs', bs = b :: bs' /\ byte <= b <= byte + N.ones p) /\
    forall rest, hd_read_at other p (bs ++ rest) = Ok (v, rest).
Proof.
  intros Hsp Hb Hz. destruct (HD_MAX_small p Hsp) as [HM Hp].
  unfold hd_write_int. rewrite HM. cbn [bind].
  assert (Hpow : 0 < 2 ^ p) by (apply N.neq_0_lt_0, N.pow_nonzero; lia).
  assert (Hones : N.ones p = 2 ^ p - 1) by (rewrite N.ones_equiv; lia).
  destruct (N.ltb_spec v (N.ones p)) as [Hlt|Hge].
  - destruct (N.leb_spec p 8) as [_|]; [|lia].
    rewrite (lor_flag byte p) by lia. rewrite pack_B_ok by lia.
    exists [byte + v]. split; [reflexivity|]. split; [constructor; [lia|constructor]|].
    split; [discriminate|].
    split; [intros _; exists (byte + v), []; split; [reflexivity|lia]|].
    intros rest. unfold hd_read_at.
    destruct (N.eqb_spec p 0) as [->|Hp0].
    { simpl in Hlt. lia. }
    cbn [app hd_byte bind]. unfold hd_read_int.
    rewrite HM. cbn [bind].
    destruct (N.leb_spec p 8) as [_|]; [|lia]. cbn [bind].
    rewrite N.land_ones.
    rewrite <- N.add_mod_idemp_l, Hz, N.add_0_l by lia.
    rewrite N.mod_small by lia.
    destruct (N.eqb_spec v (N.ones p)); [lia|]. reflexivity.
  - set (w := v - N.ones p).
    assert (Hread : forall b rest', b mod 2 ^ p = N.ones p ->
        hd_read_int b p rest' = let* (b, s) := hd_byte rest' in hd_read_digits b (N.ones p) 1 s).
    { intros b rest' Eb. unfold hd_read_int. rewrite HM. cbn [bind].
      destruct (N.leb_spec p 8) as [_|]; [|lia]. cbn [bind].
      rewrite N.land_ones, Eb. destruct (N.eqb_spec (N.ones p) (N.ones p)); [|lia]. reflexivity. }
    assert (Htail : exists z ds, (if w =? 0 then pack_B 0 else Ok []) = Ok z /\
        hd_digits (N.to_nat (N.size w)) w = Ok ds /\ is_bytes (z ++ ds) /\ z ++ ds <> [] /\
       forall rest, (let* (b, s) := hd_byte ((z ++ ds) ++ rest) in hd_read_digits b (N.ones p) 1 s) = Ok (v, rest)).
    { destruct (N.eqb_spec w 0) as [Hw|Hw].
      - exists [0], []. rewrite Hw. split; [reflexivity|]. split; [reflexivity|].
        split; [constructor; [lia|constructor]|]. split; [discriminate|].
        intros rest. cbn [app hd_byte bind]. rewrite hd_digits_zero. f_equal. f_equal. lia.
      - destruct (hd_digits_ok (N.to_nat (N.size w)) w) as (b & ds & E & Hbb & Hds & R);
          [lia|apply size_nat_bound|].
        exists [], (b :: ds). split; [reflexivity|]. split; [exact E|].
        split; [constructor; auto|]. split; [discriminate|].
        intros rest. cbn [app hd_byte bind]. rewrite R. f_equal. f_equal. lia. }
    destruct Htail as (z & ds & Ez & E & Hbytes & Hne & R).
    destruct (N.ltb_spec 0 p) as [Hp0|Hp0].
    + rewrite (lor_flag byte p) by lia. rewrite pack_B_ok by lia. cbn [bind].
      rewrite Ez. cbn [bind]. rewrite E. cbn [bind].
      exists ([byte + N.ones p] ++ z ++ ds).
      split; [reflexivity|].
      split; [constructor; [lia|exact Hbytes]|]. split; [discriminate|].
      split; [intros _; exists (byte + N.ones p), (z ++ ds); split; [reflexivity|lia]|].
      intros rest. unfold hd_read_at. destruct (N.eqb_spec p 0); [lia|].
      cbn [app hd_byte bind]. rewrite Hread; [apply R|].
      rewrite <- N.add_mod_idemp_l, Hz, N.add_0_l by lia. rewrite N.mod_small; lia.
    + assert (p = 0) by lia. subst p. cbn [bind app].
      rewrite Ez. cbn [bind]. rewrite E. cbn [bind].
      exists (z ++ ds). split; [reflexivity|].
      split; [exact Hbytes|]. split; [exact Hne|]. split; [lia|].
      intros rest. unfold hd_read_at. cbn [N.eqb].
      rewrite Hread; [apply R|]. apply N.mod_1_r.
Qed.

(** The 14-bit prefix. *)
Lemma hd_write_read_14 byte v : byte < 256 -> byte mod 64 = 0 -> v < 16383 ->
  exists b0 b1, hd_write_int byte 14 v = Ok [b0; b1] /\ b0 < 256 /\ b1 < 256 /\ b0 / 64 = byte / 64 /\
    forall rest, hd_read_int b0 14 (b1 :: rest) = Ok (v, rest).
Proof.
  intros Hb Hz Hv. unfold hd_write_int. cbn [HD_MAX bind].
  destruct (N.ltb_spec v 16383); [|lia].
  change (14 <=? 8) with false. cbv iota zeta.
  rewrite shiftr8, land255.
  rewrite (lor_flag byte 6) by (change (2 ^ 6) with 64; lia).
  rewrite lor_shift_low by (change (2 ^ 8) with 256; lia). change (2 ^ 8) with 256.
  assert (Hk : byte + v / 256 < 256) by lia.
  unfold pack_H.
  destruct (N.ltb_spec ((byte + v / 256) * 256 + v mod 256) 65536); [|lia].
  rewrite shiftr8, land255.
  exists (byte + v / 256), (v mod 256).
  replace (((byte + v / 256) * 256 + v mod 256) / 256) with (byte + v / 256) by lia.
  replace (((byte + v / 256) * 256 + v mod 256) mod 256) with (v mod 256) by lia.
  split; [reflexivity|]. split; [lia|]. split; [lia|]. split; [lia|].
  intros rest. unfold hd_read_int. cbn [HD_MAX bind hd_byte]. change (14 <=? 8) with false.
  change (14 - 8) with 6. cbv iota. cbn [HD_MAX bind hd_byte].
  rewrite land255, (land_ones_mod _ 6) by reflexivity. change (2 ^ 6) with 64.
  rewrite lor_shift_low by (change (2 ^ 8) with 256; lia). change (2 ^ 8) with 256.
  replace (((byte + v / 256) mod 64) * 256 + v mod 256 mod 256) with v by lia.
  destruct (N.eqb_spec v 16383); [lia|]. reflexivity.
Qed.

Lemma hd_write_14_large byte v : 16383 <= v -> hd_write_int byte 14 v = Err StructError.
Proof.
  intros Hv. unfold hd_write_int. cbn [HD_MAX bind].
  destruct (N.ltb_spec v 16383); [lia|]. change (0 <? 14) with true. cbv iota.
  unfold pack_B.
  destruct (N.ltb_spec (N.lor byte 16383) 256) as [H1|]; [|reflexivity]. exfalso.
  assert (HT : N.testbit (N.lor byte 16383) 13 = true).
  { rewrite N.lor_spec. change (N.testbit 16383 13) with true. apply orb_true_r. }
  rewrite (testbit_high _ 8 13) in HT; [discriminate| |lia]. exact H1.
Qed.

(** Literal strings without Huffman. *)
Lemma hd_plain_ok v : exists bs, hd_write_plain v = Ok bs /\
  forall rest, hd_read_plain (bs ++ rest) = Ok (v, lenN bs).
Proof.
  unfold hd_write_plain.
  destruct (hd_write_read_int 0 0 0 (lenN v)) as (bs & E & Hb & _ & _ & R);
    [now left|reflexivity|reflexivity|].
  rewrite E. cbn [bind]. exists (bs ++ v). split; [reflexivity|].
  intros rest. unfold hd_read_plain. rewrite <- app_assoc.
  unfold hd_read_at in R. cbn [N.eqb] in R. rewrite R. cbn [bind].
  rewrite takeN_app. f_equal. f_equal. unfold lenN. rewrite !app_length. lia.
Qed.
