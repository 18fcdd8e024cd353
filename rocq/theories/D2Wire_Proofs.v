(** * delta2's wire format: what is written, as bits, and that reading undoes it. *)
From Coq Require Import List NArith ZArith Bool Arith Lia ZifyN ZifyNat.
From Verif Require Import PyBase NBits Bits BB_Model BB_Spec BB_Proofs BB_Read D2Huff_Model D2Huff_Proofs D2Wire_Model.
Import ListNotations.
Open Scope N_scope.
Open Scope py_scope.
Ltac Zify.zify_post_hook ::= Z.div_mod_to_equations.

(** ** Variable-length integers *)

Lemma eight_cases (P : N -> Prop) : P 0 -> P 1 -> P 2 -> P 3 -> P 4 -> P 5 -> P 6 -> P 7 -> forall x, x < 8 -> P x.
Proof.
  intros. assert (C : x = 0 \/ x = 1 \/ x = 2 \/ x = 3 \/ x = 4 \/ x = 5 \/ x = 6 \/ x = 7) by lia.
  destruct C as [->|[->|[->|[->|[->|[->|[->| ->]]]]]]]; assumption.
Qed.
Lemma nib_more x : x < 8 -> N.lor 8 x = 8 + x /\ N.land (8 + x) 7 = x /\ (N.land (8 + x) 8 =? 0) = false.
Proof. revert x. apply eight_cases; repeat split. Qed.
Lemma nib_last x : x < 8 -> N.land x 7 = x /\ (N.land x 8 =? 0) = true.
Proof. revert x. apply eight_cases; repeat split. Qed.
Lemma land7 v : N.land v 7 = v mod 8.
Proof. change 7 with (N.ones 3). now rewrite N.land_ones. Qed.

Lemma rd_same_num b A x R b' : rd b A (x ++ R) -> rd b' (A ++ x) R -> bb_num b' = bb_num b.
Proof. intros H H'. rewrite (rd_num _ _ _ H), (rd_num _ _ _ H'), !app_length. clear. lia. Qed.

Fixpoint vbits (f : nat) (v : N) : list bool :=
  if 7 <? v then match f with O => [] | S f => bits_of 4 (8 + v mod 8) ++ vbits f (v / 8) end else bits_of 4 v.

Lemma pow2_S n : 2 ^ N.of_nat (S n) = 2 * 2 ^ N.of_nat n.
Proof. rewrite Nat2N.inj_succ. apply N.pow_succ_r'. Qed.

Lemma pack_loop_ok f : forall v b A R, v < 2 ^ N.of_nat f -> rd b A R ->
  exists b', pack_varint_loop f b v = Ok b' /\ rd b' A (R ++ vbits f v).
Proof.
  induction f as [|f IH]; intros v b A R Hv Hb; cbn [pack_varint_loop vbits]; destruct (N.ltb_spec 7 v) as [L|L].
  - change (2 ^ N.of_nat 0) with 1 in Hv. lia.
  - rewrite land7, N.mod_small by lia. apply rd_store4; [exact Hb|lia].
  - rewrite land7. destruct (nib_more (v mod 8) ltac:(lia)) as (E & _ & _). rewrite E.
    destruct (rd_store4 b A R (8 + v mod 8) Hb ltac:(lia)) as (b1 & E1 & H1). rewrite E1. cbn [bind].
    replace (N.shiftr v 3) with (v / 8) by (rewrite N.shiftr_div_pow2; reflexivity).
    destruct (IH (v / 8) b1 A _ ltac:(rewrite pow2_S in Hv; lia) H1) as (b2 & E2 & H2).
    exists b2. split; [exact E2|]. now rewrite <- app_assoc in H2.
  - rewrite land7, N.mod_small by lia. apply rd_store4; [exact Hb|lia].
Qed.

Lemma unpack_loop_ok f : forall v b A R, v < 2 ^ N.of_nat f -> rd b A (vbits f v ++ R) ->
  exists n b1, bb_get4 b = Ok (n, b1) /\ bb_num b1 = bb_num b /\
  forall acc shift fuel, (length (vbits f v) <= fuel)%nat ->
  exists b', unpack_varint_loop fuel b1 n shift (acc + N.shiftl (N.land n 7) shift) = Ok (acc + v * 2 ^ shift, b') /\
    rd b' (A ++ vbits f v) R.
Proof.
  induction f as [|f IH]; intros v b A R Hv Hb; cbn [vbits] in *; destruct (N.ltb_spec 7 v) as [L|L].
  1: change (2 ^ N.of_nat 0) with 1 in Hv; lia.
  1, 3: destruct (rd_get4 b A R v ltac:(lia) Hb) as (b1 & E1 & H1); exists v, b1; split; [exact E1|];
    split; [exact (rd_same_num _ _ _ _ _ Hb H1)|];
    intros acc shift fuel _; exists b1; destruct (nib_last v ltac:(lia)) as [Ea Eb];
    destruct fuel; cbn [unpack_varint_loop]; rewrite Eb, Ea, N.shiftl_mul_pow2; (split; [reflexivity|exact H1]).
  rewrite <- app_assoc in Hb. destruct (rd_get4 b A _ (8 + v mod 8) ltac:(lia) Hb) as (b1 & E1 & H1). exists (8 + v mod 8), b1. split; [exact E1|].
  split; [exact (rd_same_num _ _ _ _ _ Hb H1)|].
  destruct (nib_more (v mod 8) ltac:(lia)) as (_ & Ea & Eb).
  destruct (IH (v / 8) b1 _ R ltac:(rewrite pow2_S in Hv; lia) H1) as (n & b2 & E2 & _ & H2).
  intros acc shift fuel Hf. rewrite app_length, bits_of_length in Hf. destruct fuel as [|fuel]; [lia|].
  cbn [unpack_varint_loop]. rewrite Eb, E2, Ea. cbn [bind]. cbv zeta.
  destruct (H2 (acc + N.shiftl (v mod 8) shift) (shift + 3) fuel ltac:(lia)) as (b' & E' & H').
  exists b'. rewrite E'. split; [|now rewrite <- app_assoc in H'].
  do 2 f_equal. rewrite N.shiftl_mul_pow2, N.pow_add_r. change (2 ^ 3) with 8.
  pose proof (N.div_mod v 8 ltac:(lia)). nia.
Qed.

(** The bits of a number: one nibble, or fifteen and groups of three bits, the
    lowest first. *)
Definition varint_bits (v : N) : list bool :=
  if v <? 15 then bits_of 4 v else bits_of 4 15 ++ vbits (N.size_nat v) (v - 15).

Lemma size_nat_gt v : v < 2 ^ N.of_nat (N.size_nat v).
Proof.
  destruct v as [|p]; [reflexivity|]. cbn [N.size_nat]. induction p as [p IH|p IH|]; cbn [Pos.size_nat]; rewrite ?pow2_S; try reflexivity.
  - change (N.pos p~1) with (2 * N.pos p + 1). lia.
  - change (N.pos p~0) with (2 * N.pos p); lia.
Qed.

Lemma pack_varint_ok v b A R : rd b A R -> exists b', pack_varint b (Z.of_N v) = Ok b' /\ rd b' A (R ++ varint_bits v).
Proof.
  intros Hb. unfold pack_varint, varint_bits. destruct (Z.ltb_spec (Z.of_N v) 0); [lia|]. rewrite N2Z.id. cbv zeta.
  destruct (N.ltb_spec v 15).
  - change 15 with (N.ones 4). rewrite N.land_ones, N.mod_small by (change (2 ^ 4) with 16; lia). apply rd_store4; [exact Hb|lia].
  - destruct (rd_store4 b A R 15 Hb ltac:(lia)) as (b1 & E1 & H1). rewrite E1. cbn [bind].
    destruct (pack_loop_ok (N.size_nat v) (v - 15) b1 A _ ltac:(pose proof (size_nat_gt v); lia) H1) as (b2 & E2 & H2).
    exists b2. split; [exact E2|]. now rewrite <- app_assoc in H2.
Qed.

Lemma unpack_varint_ok v b A R : rd b A (varint_bits v ++ R) -> exists b', unpack_varint b = Ok (v, b') /\ rd b' (A ++ varint_bits v) R.
Proof.
  intros Hb. unfold unpack_varint, varint_bits in *. destruct (N.ltb_spec v 15) as [L|L].
  - destruct (rd_get4 b A R v ltac:(lia) Hb) as (b1 & E1 & H1). rewrite E1. cbn [bind]. destruct (N.ltb_spec v 15); [|lia]. eauto.
  - rewrite <- app_assoc in Hb. destruct (rd_get4 b A _ 15 ltac:(lia) Hb) as (b1 & E1 & H1). rewrite E1. cbn [bind].
    change (15 <? 15) with false. cbv iota.
    destruct (unpack_loop_ok (N.size_nat v) (v - 15) b1 _ R ltac:(pose proof (size_nat_gt v); lia) H1) as (n & b2 & E2 & Hn & H2).
    rewrite E2. cbn [bind]. destruct (H2 15 0 (bb_num b2)) as (b3 & E3 & H3).
    { rewrite Hn, (rd_num _ _ _ H1), !app_length. lia. }
    exists b3. rewrite E3. split; [do 2 f_equal; change (2 ^ 0) with 1; lia|]. now rewrite <- app_assoc in H3.
Qed.

(** ** Indices and strings *)

Definition index_ok (w : iwidth) (i : Z) : Prop :=
  match w with VarInt => 0 <= i | Int8 => 0 <= i < 256 | Int16 => 0 <= i < 65536 end%Z.
Definition index_bits (w : iwidth) (i : Z) : list bool :=
  match w with VarInt => varint_bits (Z.to_N i) | Int8 => bits_of 8 (Z.to_N i) | Int16 => bits_of_bytes (o16 (Z.to_N i)) end.

Lemma pack_index_ok w i b A R : index_ok w i -> rd b A R -> exists b', pack_index w b i = Ok b' /\ rd b' A (R ++ index_bits w i).
Proof.
  intros Hi Hb. destruct w; cbn [index_ok pack_index index_bits] in *.
  - destruct (Z.ltb_spec i 0); [lia|]. apply rd_store8; [exact Hb|lia].
  - destruct (Z.ltb_spec i 0); [lia|]. apply rd_store16; [exact Hb|lia].
  - pose proof (pack_varint_ok (Z.to_N i) b A R Hb) as H. rewrite Z2N.id in H by lia. exact H.
Qed.

Lemma unpack_index_ok w i b A R : index_ok w i -> rd b A (index_bits w i ++ R) ->
  exists b', unpack_index w b = Ok (i, b') /\ rd b' (A ++ index_bits w i) R.
Proof.
  intros Hi Hb. unfold unpack_index. destruct w; cbn [index_ok index_bits] in *.
  - destruct (rd_get8 b A R (Z.to_N i) ltac:(lia) Hb) as (b1 & E1 & H1). rewrite E1. cbn [bind]. exists b1. split; [do 2 f_equal; lia|exact H1].
  - destruct (rd_get16 b A R (Z.to_N i) ltac:(lia) Hb) as (b1 & E1 & H1). rewrite E1. cbn [bind]. exists b1. split; [do 2 f_equal; lia|exact H1].
  - destruct (unpack_varint_ok _ b A R Hb) as (b1 & E1 & H1). rewrite E1. cbn [bind]. exists b1. split; [do 2 f_equal; lia|exact H1].
Qed.

Lemma index_bits_len w i : (4 <= length (index_bits w i))%nat.
Proof.
  destruct w; cbn [index_bits].
  - rewrite bits_of_length. lia.
  - rewrite bits_of_bytes_length. cbn. lia.
  - unfold varint_bits. destruct (_ <? 15); rewrite ?app_length, bits_of_length; lia.
Qed.

Lemma pad_len_mod n m : (n mod 8 = m mod 8)%nat -> pad_len n = pad_len m.
Proof. unfold pad_len. now intros ->. Qed.

Section Strings.
  Variables (h : huffman) (ws : list (list bool)).
  Hypothesis (G : good h ws) (He : 256 < lenN ws).

  Definition raw_bits (s : str) : list bool := bits_for ws s ++ word_of ws 256.
  (** A string that starts at bit [n]. *)
  Definition sbits (n : nat) (s : str) : list bool := raw_bits s ++ repeat false (pad_len (n + length (raw_bits s))).

  Lemma sbits_mod n m s : (n mod 8 = m mod 8)%nat -> sbits n s = sbits m s.
  Proof.
    intros H. unfold sbits. rewrite (pad_len_mod (n + _) (m + length (raw_bits s))); [reflexivity|].
    rewrite Nat.add_mod, H, <- Nat.add_mod by lia. reflexivity.
  Qed.

  Lemma is_bytes_lt s : is_bytes s -> Forall (fun c => c < lenN ws) s.
  Proof. intros H. eapply Forall_impl; [|exact H]. cbn. intros c Hc. lia. Qed.

  Lemma pack_str_ok s b A R : is_bytes s -> rd b A R ->
    exists b', pack_str h b s = Ok b' /\ rd b' A (R ++ sbits (length A + length R) s).
  Proof.
    intros Hs Hb. unfold pack_str. rewrite (encode_ok h ws s G He (is_bytes_lt s Hs)). cbn [bind].
    destruct (rd_store_bits b A R (raw_bits s) Hb) as (b1 & E1 & H1). unfold raw_bits in E1. rewrite E1. cbn [bind].
    exists (bb_pad b1). split; [reflexivity|]. apply rd_pad in H1. rewrite <- app_assoc in H1. unfold sbits.
    rewrite app_length, Nat.add_assoc in H1. exact H1.
  Qed.

  Lemma unpack_str_ok s n b A R : is_bytes s -> (n mod 8 = length A mod 8)%nat -> rd b A (sbits n s ++ R) ->
    exists b', unpack_str h b = Ok (s, b') /\ rd b' (A ++ sbits n s) R.
  Proof.
    intros Hs Hn Hb. rewrite (sbits_mod n _ s Hn) in *. clear n Hn. unfold unpack_str, sbits in *.
    rewrite <- app_assoc in Hb. unfold raw_bits in Hb at 1. rewrite <- app_assoc in Hb.
    destruct (decode_eof_ok h ws s G He) with (b := b) (A := A) (R := repeat false (pad_len (length A + length (raw_bits s))) ++ R)
      as (b1 & E1 & H1); [|exact Hb|].
    { eapply Forall_impl; [|exact Hs]. cbn. intros c Hc. lia. }
    rewrite E1. cbn [bind]. exists (bb_advance b1). split; [reflexivity|].
    apply rd_advance in H1; [rewrite <- app_assoc in H1; exact H1|]. rewrite repeat_length, app_length. reflexivity.
  Qed.

  Lemma sbits_len n s : (1 <= length (sbits n s))%nat.
  Proof. unfold sbits, raw_bits. rewrite !app_length. pose proof (word_ne ws 256 (g_ne _ _ G) He). lia. Qed.

  Lemma sbits_text n s : is_bytes s -> (length s <= length (sbits n s))%nat.
  Proof.
    intros H. unfold sbits, raw_bits. rewrite !app_length. pose proof (bits_for_len ws s (g_ne _ _ G) (is_bytes_lt s H)). lia.
  Qed.

  Lemma sbits_end n s : ((n + length (sbits n s)) mod 8 = 0)%nat.
  Proof.
    unfold sbits. rewrite app_length, repeat_length. unfold pad_len.
    set (k := (n + length (raw_bits s))%nat). replace (n + (length (raw_bits s) + (8 - k mod 8) mod 8))%nat with (k + (8 - k mod 8) mod 8)%nat by (unfold k; lia).
    clearbody k. clear. pose proof (Nat.div_mod k 8 ltac:(lia)). pose proof (Nat.mod_upper_bound k 8 ltac:(lia)).
    destruct (Nat.eq_dec (k mod 8) 0) as [Z|Z]; [rewrite Z; change ((8 - 0) mod 8)%nat with 0%nat; rewrite Nat.add_0_r; exact Z|].
    rewrite (Nat.mod_small (8 - _)) by lia. replace (k + (8 - k mod 8))%nat with ((k / 8 + 1) * 8)%nat by lia. apply Nat.mod_mul. lia.
  Qed.

  (** ** Operations *)

  Definition code_of (o : op) : opcode :=
    match o with OToggl e _ => (Toggl, e) | OTrang e _ _ => (Trang, e) | OClone e _ _ => (Clone, e) | OKvsto e _ _ => (Kvsto, e) end.
  Definition op_ok (w : iwidth) (o : op) : Prop :=
    match o with
    | OToggl _ i => index_ok w i
    | OTrang _ i s => index_ok w i /\ index_ok w s
    | OClone _ i v => index_ok w i /\ is_bytes v
    | OKvsto _ k v => is_bytes k /\ is_bytes v
    end.
  Definition op_bits (w : iwidth) (n : nat) (o : op) : list bool :=
    match o with
    | OToggl _ i => index_bits w i
    | OTrang _ i s => index_bits w i ++ index_bits w s
    | OClone _ i v => index_bits w i ++ sbits (n + length (index_bits w i)) v
    | OKvsto _ k v => sbits n k ++ sbits (n + length (sbits n k)) v
    end.

  Lemma add_mod8 n m k : (n mod 8 = m mod 8 -> (n + k) mod 8 = (m + k) mod 8)%nat.
  Proof. intros H. rewrite Nat.add_mod, H, <- Nat.add_mod by lia. reflexivity. Qed.

  Lemma op_bits_mod w n m o : (n mod 8 = m mod 8)%nat -> op_bits w n o = op_bits w m o.
  Proof.
    intros H. destruct o; cbn [op_bits]; try reflexivity.
    - f_equal. apply sbits_mod, add_mod8, H.
    - rewrite (sbits_mod n m key H). f_equal. apply sbits_mod, add_mod8, H.
  Qed.

  Lemma write_op_ok w o b A R : op_ok w o -> rd b A R ->
    exists b', write_op w h b o = Ok b' /\ rd b' A (R ++ op_bits w (length A + length R) o).
  Proof.
    intros Ho Hb. destruct o as [e i|e i s|e i v|e k v]; cbn [op_ok write_op op_bits] in *.
    - now apply pack_index_ok.
    - destruct Ho as [H1 H2]. destruct (pack_index_ok w i b A R H1 Hb) as (b1 & E1 & B1). rewrite E1. cbn [bind].
      destruct (pack_index_ok w s b1 A _ H2 B1) as (b2 & E2 & B2). exists b2. split; [exact E2|]. now rewrite app_assoc.
    - destruct Ho as [H1 H2]. destruct (pack_index_ok w i b A R H1 Hb) as (b1 & E1 & B1). rewrite E1. cbn [bind].
      destruct (pack_str_ok v b1 A _ H2 B1) as (b2 & E2 & B2). exists b2. split; [exact E2|].
      rewrite app_length, Nat.add_assoc in B2. now rewrite app_assoc.
    - destruct Ho as [H1 H2]. destruct (pack_str_ok k b A R H1 Hb) as (b1 & E1 & B1). rewrite E1. cbn [bind].
      destruct (pack_str_ok v b1 A _ H2 B1) as (b2 & E2 & B2). exists b2. split; [exact E2|].
      rewrite app_length, Nat.add_assoc in B2. now rewrite app_assoc.
  Qed.

  Lemma read_op_ok w o n b A R : op_ok w o -> (n mod 8 = length A mod 8)%nat -> rd b A (op_bits w n o ++ R) ->
    exists b', read_op w h (code_of o) b = Ok (o, b') /\ rd b' (A ++ op_bits w n o) R.
  Proof.
    intros Ho Hn Hb. rewrite (op_bits_mod w n _ o Hn) in *. clear n Hn.
    destruct o as [e i|e i s|e i v|e k v]; cbn [op_ok read_op op_bits code_of] in *; try rewrite <- app_assoc in Hb.
    - destruct (unpack_index_ok w i b A R Ho Hb) as (b1 & E1 & B1). rewrite E1. cbn [bind]. eauto.
    - destruct Ho as [H1 H2]. destruct (unpack_index_ok w i b A _ H1 Hb) as (b1 & E1 & B1). rewrite E1. cbn [bind].
      destruct (unpack_index_ok w s b1 _ R H2 B1) as (b2 & E2 & B2). rewrite E2. cbn [bind]. exists b2. split; [reflexivity|]. now rewrite app_assoc.
    - destruct Ho as [H1 H2]. destruct (unpack_index_ok w i b A _ H1 Hb) as (b1 & E1 & B1). rewrite E1. cbn [bind].
      destruct (unpack_str_ok v _ b1 _ R H2 ltac:(now rewrite app_length) B1) as (b2 & E2 & B2). rewrite E2. cbn [bind].
      exists b2. split; [reflexivity|]. now rewrite app_assoc.
    - destruct Ho as [H1 H2]. destruct (unpack_str_ok k _ b A _ H1 eq_refl Hb) as (b1 & E1 & B1). rewrite E1. cbn [bind].
      destruct (unpack_str_ok v _ b1 _ R H2 ltac:(now rewrite app_length) B1) as (b2 & E2 & B2). rewrite E2. cbn [bind].
      exists b2. split; [reflexivity|]. now rewrite app_assoc.
  Qed.

  Lemma op_bits_len w n o : (1 <= length (op_bits w n o))%nat.
  Proof.
    destruct o; cbn [op_bits]; rewrite ?app_length; try pose proof (index_bits_len w index); try pose proof (sbits_len n key); lia.
  Qed.

  (** Several operations of one kind. *)
  Fixpoint ops_bits (w : iwidth) (n : nat) (ops : list op) : list bool :=
    match ops with
    | [] => []
    | o :: r => op_bits w n o ++ ops_bits w (n + length (op_bits w n o)) r
    end.

  Lemma ops_bits_mod w ops : forall n m, (n mod 8 = m mod 8)%nat -> ops_bits w n ops = ops_bits w m ops.
  Proof.
    induction ops as [|o r IH]; intros n m H; cbn [ops_bits]; [reflexivity|].
    rewrite (op_bits_mod w n m o H). f_equal. apply IH, add_mod8, H.
  Qed.

  Lemma write_ops_ok w ops : Forall (op_ok w) ops -> forall b A R, rd b A R ->
    exists b', write_ops w h b ops = Ok b' /\ rd b' A (R ++ ops_bits w (length A + length R) ops).
  Proof.
    induction 1 as [|o r Ho HF IH]; intros b A R Hb; cbn [write_ops ops_bits].
    - exists b. rewrite app_nil_r. auto.
    - destruct (write_op_ok w o b A R Ho Hb) as (b1 & E1 & B1). rewrite E1. cbn [bind].
      destruct (IH b1 A _ B1) as (b2 & E2 & B2). exists b2. split; [exact E2|]. rewrite app_length, Nat.add_assoc in B2. now rewrite app_assoc.
  Qed.

  Lemma read_ops_ok w c ops : Forall (fun o => code_of o = c /\ op_ok w o) ops -> forall n b A R acc,
    (n mod 8 = length A mod 8)%nat -> rd b A (ops_bits w n ops ++ R) ->
    exists b', read_ops (length ops) w h c b acc = (acc ++ ops, Ok b') /\ rd b' (A ++ ops_bits w n ops) R.
  Proof.
    induction 1 as [|o r [Hc Ho] HF IH]; intros n b A R acc Hn Hb; cbn [length read_ops ops_bits] in *.
    - exists b. rewrite !app_nil_r. auto.
    - rewrite <- app_assoc in Hb. destruct (read_op_ok w o n b A _ Ho Hn Hb) as (b1 & E1 & B1). rewrite Hc in E1. rewrite E1.
      destruct (IH (n + length (op_bits w n o))%nat b1 (A ++ op_bits w n o) R (acc ++ [o]) ltac:(rewrite app_length; now apply add_mod8) B1) as (b2 & E2 & B2).
      exists b2. rewrite E2, <- app_assoc. split; [reflexivity|]. now rewrite app_assoc.
  Qed.

  (** ** Chunks of at most sixteen operations *)

  Definition chunk := (opcode * list op)%type.
  Definition chunk_ok (w : iwidth) (ch : chunk) : Prop :=
    (1 <= length (snd ch) <= 16)%nat /\ Forall (fun o => code_of o = fst ch /\ op_ok w o) (snd ch).
  Definition head_val (ch : chunk) : N := opcode_val (fst ch) * 16 + (lenN (snd ch) - 1).
  Definition chunk_bits (w : iwidth) (n : nat) (ch : chunk) : list bool :=
    bits_of 8 (head_val ch) ++ ops_bits w (n + 8) (snd ch).
  Fixpoint cbits (w : iwidth) (n : nat) (cs : list chunk) : list bool :=
    match cs with
    | [] => []
    | ch :: r => chunk_bits w n ch ++ cbits w (n + length (chunk_bits w n ch)) r
    end.

  Lemma opcode_lt c : opcode_val c < 8.
  Proof. destruct c as [[] []]; reflexivity. Qed.
  Lemma opcode_back c : opcode_to_op (opcode_val c) = Ok c.
  Proof. destruct c as [[] []]; reflexivity. Qed.

  Lemma head_bits (k m : N) : k < 8 -> m < 16 -> N.lor (N.shiftl k 4) (N.land m 15) = k * 16 + m.
  Proof.
    intros Hk Hm. change 15 with (N.ones 4). rewrite N.land_ones, N.mod_small by exact Hm.
    rewrite N.shiftl_mul_pow2. change (2 ^ 4) with 16.
    change 16 with (2 ^ 4). rewrite <- N.shiftl_mul_pow2, N.add_comm, N.lor_comm. 
    rewrite <- N.lxor_lor, N.add_nocarry_lxor; try reflexivity; apply N.bits_inj_0; intros j; rewrite N.land_spec;
    (destruct (N.lt_ge_cases j 4) as [L|L];
     [rewrite N.shiftl_spec_low by exact L; apply andb_false_r
     |rewrite <- (N.mod_small m (2 ^ 4)) by exact Hm; rewrite N.mod_pow2_bits_high by exact L; reflexivity]).
  Qed.

  Lemma head_low v : v < 128 -> forall k m, m < 16 -> v = k * 16 + m -> N.shiftr v 4 = k /\ N.land v 15 = m.
  Proof.
    intros Hv k m Hm ->. rewrite N.shiftr_div_pow2. change 15 with (N.ones 4). rewrite N.land_ones. change (2 ^ 4) with 16. lia.
  Qed.

  Lemma chunk_bits_mod w n m ch : (n mod 8 = m mod 8)%nat -> chunk_bits w n ch = chunk_bits w m ch.
  Proof. intros H. unfold chunk_bits. f_equal. apply ops_bits_mod, add_mod8, H. Qed.

  Lemma cbits_mod w cs : forall n m, (n mod 8 = m mod 8)%nat -> cbits w n cs = cbits w m cs.
  Proof.
    induction cs as [|ch r IH]; intros n m H; cbn [cbits]; [reflexivity|]. rewrite (chunk_bits_mod w n m ch H). f_equal. apply IH, add_mod8, H.
  Qed.

  Lemma chunk_bits_len w n ch : chunk_ok w ch -> (9 <= length (chunk_bits w n ch))%nat.
  Proof.
    intros [Hl _]. unfold chunk_bits. rewrite app_length, bits_of_length. destruct (snd ch) as [|o r]; [cbn in Hl; lia|].
    cbn [ops_bits]. rewrite app_length. pose proof (op_bits_len w (n + 8) o). lia.
  Qed.

  (** Cutting the operations of one kind. *)
  Fixpoint cut16 (fuel : nat) (ops : list op) : list (list op) :=
    match ops with
    | [] => []
    | _ => match fuel with O => [] | S f => firstn (Nat.min (length ops) 16) ops :: cut16 f (skipn (Nat.min (length ops) 16) ops) end
    end.
  Definition cut (is : instructions) : list chunk :=
    flat_map (fun i => map (pair (fst i)) (cut16 (length (snd i)) (snd i))) is.

  Definition kind_ok (w : iwidth) (i : opcode * list op) : Prop := Forall (fun o => code_of o = fst i /\ op_ok w o) (snd i).

  Lemma output_ops_ok w c fuel : forall ops b A R, (length ops <= fuel)%nat -> kind_ok w (c, ops) -> rd b A R ->
    exists b', output_ops fuel w h b ops c = Ok b' /\ rd b' A (R ++ cbits w (length A + length R) (map (pair c) (cut16 fuel ops))) /\
      Forall (chunk_ok w) (map (pair c) (cut16 fuel ops)) /\ concat (cut16 fuel ops) = ops.
  Proof.
    induction fuel as [|f IH]; intros ops b A R Hf Hk Hb; destruct ops as [|o r]; [| cbn [length] in Hf; lia | |].
    1, 2: exists b; cbn; rewrite app_nil_r; auto.
    cbn [output_ops cut16]. remember (o :: r) as l eqn:El. set (k := Nat.min (length l) 16). cbv zeta.
    assert (Hk1 : (1 <= k <= 16)%nat) by (unfold k; rewrite El; cbn [length]; lia).
    assert (Hk2 : length (firstn k l) = k) by (rewrite firstn_length; unfold k; lia).
    assert (Hs : (length (skipn k l) <= f)%nat) by (rewrite skipn_length; lia).
    unfold kind_ok in Hk. cbn [fst snd] in Hk.
    assert (Ha : Forall (fun o => code_of o = c /\ op_ok w o) (firstn k l)) by (rewrite <- (firstn_skipn k l) in Hk; apply Forall_app in Hk; apply Hk).
    assert (Hz : Forall (fun o => code_of o = c /\ op_ok w o) (skipn k l)) by (rewrite <- (firstn_skipn k l) in Hk; apply Forall_app in Hk; apply Hk).
    rewrite head_bits by (try apply opcode_lt; lia).
    pose proof (opcode_lt c) as Hc.
    destruct (rd_store8 b A R (opcode_val c * 16 + (N.of_nat k - 1)) Hb ltac:(lia)) as (b1 & E1 & B1). rewrite E1. cbn [bind].
    destruct (write_ops_ok w (firstn k l)) with (b := b1) (A := A) (R := R ++ bits_of 8 (opcode_val c * 16 + (N.of_nat k - 1))) as (b2 & E2 & B2);
      [eapply Forall_impl; [|exact Ha]; cbn; tauto|exact B1|].
    rewrite E2. cbn [bind].
    destruct (IH (skipn k l) b2 A _ Hs Hz B2) as (b3 & E3 & B3 & F3 & C3). exists b3. split; [exact E3|]. split; [|split].
    - cbn [map cbits]. unfold chunk_bits at 1. unfold head_val at 1. cbn [fst snd]. unfold lenN. rewrite Hk2.
      rewrite <- !app_assoc. rewrite <- !app_assoc in B3. rewrite !app_length, bits_of_length in B3. 
      rewrite <- Nat.add_assoc. rewrite !Nat.add_assoc in *. 
      match goal with B : rd b3 A (_ ++ _ ++ _ ++ ?x) |- rd b3 A (_ ++ _ ++ _ ++ ?y) => replace y with x; [exact B|] end.
      f_equal. unfold chunk_bits, head_val, lenN. cbn [fst snd]. rewrite Hk2, app_length, bits_of_length. lia.
    - cbn [map]. constructor; [|exact F3]. split; [cbn [snd]; lia|exact Ha].
    - cbn [concat]. rewrite C3. apply firstn_skipn.
  Qed.

  Lemma cbits_app w x : forall n y, cbits w n (x ++ y) = cbits w n x ++ cbits w (n + length (cbits w n x)) y.
  Proof.
    induction x as [|ch r IH]; intros n y; cbn [app cbits length]; [now rewrite Nat.add_0_r|].
    rewrite IH, app_length, Nat.add_assoc. now rewrite app_assoc.
  Qed.

  Lemma output_all_ok w is : Forall (kind_ok w) is -> forall b A R, rd b A R ->
    exists b', output_all w h b is = Ok b' /\ rd b' A (R ++ cbits w (length A + length R) (cut is)) /\
      Forall (chunk_ok w) (cut is) /\ flat_map snd (cut is) = flat_map snd is.
  Proof.
    induction 1 as [|[c ops] r Hk HF IH]; intros b A R Hb.
    - exists b. cbn. rewrite app_nil_r. auto.
    - cbn [output_all]. destruct (output_ops_ok w c (length ops) ops b A R (le_n _) Hk Hb) as (b1 & E1 & B1 & F1 & C1). rewrite E1. cbn [bind].
      destruct (IH b1 A _ B1) as (b2 & E2 & B2 & F2 & C2). exists b2. split; [exact E2|]. unfold cut. cbn [flat_map fst snd]. fold (cut r). split; [|split].
      + rewrite cbits_app, app_assoc. rewrite app_length, Nat.add_assoc in B2. exact B2.
      + now apply Forall_app.
      + rewrite flat_map_app, C2. f_equal. etransitivity; [|exact C1]. generalize (cut16 (length ops) ops). intros l.
        clear. induction l as [|x l IHl]; cbn [map flat_map concat snd]; [reflexivity|]. now rewrite IHl.
  Qed.

  (** ** Reading the chunks of a frame *)

  Lemma read_chunk_ok w ch n b A R acc : chunk_ok w ch -> (n mod 8 = length A mod 8)%nat -> rd b A (chunk_bits w n ch ++ R) ->
    exists b', read_chunk w h b acc = (acc ++ snd ch, Ok b') /\ rd b' (A ++ chunk_bits w n ch) R.
  Proof.
    intros [Hl HF] Hn Hb. unfold chunk_bits in *. rewrite <- app_assoc in Hb. unfold read_chunk.
    pose proof (opcode_lt (fst ch)) as Hc. assert (Hm : lenN (snd ch) - 1 < 16) by (unfold lenN; lia).
    assert (Hv : head_val ch < 128) by (unfold head_val; lia).
    destruct (rd_get8 b A _ (head_val ch) ltac:(lia) Hb) as (b1 & E1 & B1). rewrite E1.
    destruct (head_low (head_val ch) Hv (opcode_val (fst ch)) (lenN (snd ch) - 1) Hm eq_refl) as [Ea Eb]. rewrite Ea, Eb, opcode_back.
    replace (S (N.to_nat (lenN (snd ch) - 1))) with (length (snd ch)) by (unfold lenN; lia).
    destruct (read_ops_ok w (fst ch) (snd ch) HF (n + 8)%nat b1 (A ++ bits_of 8 (head_val ch)) R acc) as (b2 & E2 & B2); [|exact B1|].
    - rewrite app_length, bits_of_length. now apply add_mod8.
    - exists b2. split; [exact E2|]. now rewrite app_assoc.
  Qed.

  (** The chunks that a frame of [F] bits makes the reader read. *)
  Fixpoint kept (w : iwidth) (n : nat) (F : Z) (cs : list chunk) : list chunk :=
    match cs with
    | [] => []
    | ch :: r => if (8 <? F)%Z then ch :: kept w (n + length (chunk_bits w n ch)) (F - Z.of_nat (length (chunk_bits w n ch))) r else []
    end.

  Lemma rd_remaining b A R : rd b A R -> bb_remaining b = length R.
  Proof. intros H. unfold bb_remaining. rewrite (rd_num _ _ _ H), (rd_pos _ _ _ H). clear. lia. Qed.

  Lemma read_frame_ok w cs : Forall (chunk_ok w) cs -> forall fuel n F b A R acc,
    (n mod 8 = length A mod 8)%nat -> rd b A (cbits w n cs ++ R) -> (F <= Z.of_nat (length (cbits w n cs)) + 8)%Z ->
    (length cs <= fuel)%nat ->
    exists b', read_frame fuel w h F b acc = Ok (acc ++ flat_map snd (kept w n F cs), Ok b').
  Proof.
    induction 1 as [|ch r Hch HF IH]; intros fuel n F b A R acc Hn Hb HFl Hfu.
    - cbn [cbits length kept flat_map] in *. exists b. rewrite app_nil_r. destruct fuel; cbn [read_frame]; destruct (Z.ltb_spec 8 F); try lia; reflexivity.
    - cbn [cbits kept] in *. destruct fuel as [|fuel]; [cbn in Hfu; lia|]. cbn [read_frame]. destruct (Z.ltb_spec 8 F) as [L|L].
      + rewrite <- app_assoc in Hb. destruct (read_chunk_ok w ch n b A _ acc Hch Hn Hb) as (b1 & E1 & B1). rewrite E1.
        rewrite (rd_remaining _ _ _ Hb), (rd_remaining _ _ _ B1).
        replace (F - (Z.of_nat (length (chunk_bits w n ch ++ cbits w (n + length (chunk_bits w n ch)) r ++ R)) -
                      Z.of_nat (length (cbits w (n + length (chunk_bits w n ch)) r ++ R))))%Z
          with (F - Z.of_nat (length (chunk_bits w n ch)))%Z by (rewrite (app_length (chunk_bits w n ch)); lia).
        rewrite app_length in HFl. cbn [length] in Hfu.
        destruct (IH fuel (n + length (chunk_bits w n ch))%nat (F - Z.of_nat (length (chunk_bits w n ch)))%Z b1 (A ++ chunk_bits w n ch) R (acc ++ snd ch)) as (b2 & E2); [|exact B1|lia|lia|].
        * rewrite app_length. now apply add_mod8.
        * exists b2. rewrite E2. cbn [flat_map]. now rewrite <- app_assoc.
      + exists b. cbn [flat_map]. now rewrite app_nil_r.
  Qed.

  Lemma kept_all w cs : Forall (chunk_ok w) cs -> forall n F, (Z.of_nat (length (cbits w n cs)) <= F)%Z -> kept w n F cs = cs.
  Proof.
    induction 1 as [|ch r Hch HF IH]; intros n F H; cbn [cbits kept] in *; [reflexivity|]. rewrite app_length in H.
    pose proof (chunk_bits_len w n ch Hch). destruct (Z.ltb_spec 8 F); [|lia]. f_equal. apply IH. lia.
  Qed.

  Lemma kept_prefix w cs : forall n F, exists rest, cs = kept w n F cs ++ rest.
  Proof.
    induction cs as [|ch r IH]; intros n F; cbn [kept]; [exists []; reflexivity|]. destruct (8 <? F)%Z; [|eexists; reflexivity].
    destruct (IH (n + length (chunk_bits w n ch))%nat (F - Z.of_nat (length (chunk_bits w n ch)))%Z) as (rest & E). exists rest. cbn [app]. now rewrite <- E.
  Qed.

  Lemma cbits_count w cs : forall n, (length cs <= length (cbits w n cs))%nat.
  Proof.
    induction cs as [|ch r IH]; intros n; cbn [cbits length]; [lia|]. rewrite app_length. specialize (IH (n + length (chunk_bits w n ch))%nat).
    unfold chunk_bits in *. rewrite app_length, bits_of_length in *. lia.
  Qed.
End Strings.
