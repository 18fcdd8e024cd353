(** * delta v1's wire format: what is written, as octets, and what reading
      makes of it. *)
From Coq Require Import List NArith ZArith Bool Arith Lia ZifyN ZifyNat Permutation.
From Verif Require Import PyBase NBits Bits BB_Model BB_Spec BB_Proofs BB_Read D2Huff_Model D2Huff_Proofs D2Wire_Proofs D2Wire_Frame.
From Verif Require Import D1Wire_Model.
Import ListNotations.
Open Scope N_scope.
Open Scope py_scope.
Ltac Zify.zify_post_hook ::= Z.div_mod_to_equations.

(** ** Reading, seen from its result *)

Lemma rd_get_inv b A R n r b' : rd b A R -> bb_get b n = Ok (r, b') ->
  exists x R', R = x ++ R' /\ length x = n /\ r = bytes_of_bits x /\ rd b' (A ++ x) R'.
Proof.
  intros H E. destruct (Nat.lt_ge_cases (length R) n) as [L|L]; [rewrite (rd_get_short b A R n H L) in E; discriminate|].
  exists (firstn n R), (skipn n R). assert (Hl : length (firstn n R) = n) by (rewrite firstn_length; lia).
  rewrite <- (firstn_skipn n R) in H. destruct (rd_get b A _ _ H) as (b1 & E1 & H1). rewrite Hl in E1.
  split; [now rewrite firstn_skipn|]. split; [exact Hl|]. rewrite E in E1. injection E1 as -> ->. auto.
Qed.

Lemma get8_inv b A R v b' : rd b A R -> bb_get8 b = Ok (v, b') ->
  exists x R', R = x ++ R' /\ length x = 8%nat /\ v < 256 /\ rd b' (A ++ x) R'.
Proof.
  intros H E. unfold bb_get8 in E. apply bind_ok in E. destruct E as ([r b1] & E1 & E). apply bind_ok in E. destruct E as (x0 & E2 & E).
  injection E as <- ->. destruct (rd_get_inv b A R 8 r b' H E1) as (x & R' & -> & Hl & -> & H'). exists x, R'.
  split; [reflexivity|]. split; [exact Hl|]. split; [|exact H'].
  unfold pynth in E2. destruct (nth_error (bytes_of_bits x) 0) eqn:En; [|discriminate]. injection E2 as <-.
  pose proof (bytes_of_bits_bytes x) as Hb. unfold is_bytes in Hb. rewrite Forall_forall in Hb. apply Hb. eapply nth_error_In, En.
Qed.

Lemma get16_inv b A R v b' : rd b A R -> bb_get16 b = Ok (v, b') ->
  exists x R', R = x ++ R' /\ length x = 16%nat /\ rd b' (A ++ x) R'.
Proof.
  intros H E. unfold bb_get16 in E. apply bind_ok in E. destruct E as ([r b1] & E1 & E). apply bind_ok in E. destruct E as (x0 & E2 & E).
  apply bind_ok in E. destruct E as (y0 & E3 & E). injection E as <- ->.
  destruct (rd_get_inv b A R 16 r b' H E1) as (x & R' & -> & Hl & -> & H'). now exists x, R'.
Qed.

Lemma read_bit_inv b A R x b' : rd b A R -> read_bit b = Ok (x, b') -> exists R', R = x :: R' /\ rd b' (A ++ [x]) R'.
Proof.
  intros H E. destruct R as [|y R].
  - unfold read_bit in E. rewrite (rd_get_short b A [] 1 H) in E by (cbn; lia). discriminate.
  - destruct (read_bit_ok b A R y H) as (b1 & E1 & H1). rewrite E in E1. injection E1 as -> ->. eauto.
Qed.

Lemma walk_inv t : forall b n s b' n' A R, rd b A R -> walk t b n = Ok (s, b', n') ->
  exists p R', R = p ++ R' /\ leaf_at t p s /\ rd b' (A ++ p) R'.
Proof.
  induction t as [|x|l IHl r IHr]; intros b n s b' n' A R H E; cbn [walk] in E.
  - discriminate.
  - injection E as <- <- <-. exists [], R. rewrite app_nil_r. split; [reflexivity|]. split; [constructor|exact H].
  - apply bind_ok in E. destruct E as ([bit b1] & E1 & E). destruct (read_bit_inv _ _ _ _ _ H E1) as (R' & -> & H1).
    destruct bit; [destruct (IHr _ _ _ _ _ _ _ H1 E) as (p & R2 & -> & Hl & H2)|destruct (IHl _ _ _ _ _ _ _ H1 E) as (p & R2 & -> & Hl & H2)];
    rewrite <- app_assoc in H2; eexists (_ :: p), R2; (split; [reflexivity|split; [constructor; exact Hl|exact H2]]).
Qed.

Lemma decode_loop_inv h ws : good h ws -> forall fuel b n out s b' n' A R, rd b A R -> decode_loop fuel (h_tree h) true None b n out = Ok (s, b', n') ->
  exists text R', s = out ++ text /\ R = bits_for ws text ++ word_of ws 256 ++ R' /\ rd b' (A ++ bits_for ws text ++ word_of ws 256) R'.
Proof.
  intros G. induction fuel as [|f IH]; intros b n out s b' n' A R H E; cbn [decode_loop] in E; [discriminate|].
  apply bind_ok in E. destruct E as ([[c b1] n1] & E1 & E). destruct (walk_inv _ _ _ _ _ _ _ _ H E1) as (p & R1 & -> & Hl & H1).
  destruct (g_only _ _ G _ _ Hl) as (i & Hi & ->). assert (Hp : word_of ws (N.of_nat i) = p).
  { unfold word_of. rewrite Nat2N.id. now apply nth_error_nth. }
  cbn [andb] in E. destruct (N.eqb_spec (N.of_nat i) 256) as [E256|_].
  - injection E as <- <- <-. exists [], R1. rewrite app_nil_r. rewrite E256 in Hp. cbn [bits_for flat_map app]. rewrite Hp. auto.
  - destruct (IH _ _ _ _ _ _ _ _ H1 E) as (text & R' & -> & -> & H2). exists (N.of_nat i :: text), R'.
    cbn [bits_for flat_map]. fold (bits_for ws text). rewrite Hp, <- !app_assoc. rewrite <- app_assoc in H2. auto.
Qed.

Lemma decode_inv h ws b A R s b' : good h ws -> rd b A R -> decode_from_bb h b true 0 = Ok (s, b') ->
  exists R', R = raw_bits ws s ++ R' /\ rd b' (A ++ raw_bits ws s) R'.
Proof.
  intros G H E. unfold decode_from_bb in E. cbn [negb andb Nat.eqb] in E. apply bind_ok in E. destruct E as ([[o b1] n1] & E1 & E).
  injection E as -> ->. destruct (decode_loop_inv h ws G _ _ _ _ _ _ _ _ _ H E1) as (text & R' & -> & -> & H'). exists R'.
  cbn [app]. unfold raw_bits. rewrite <- app_assoc. auto.
Qed.

(** ** Integers *)

Definition idx_ok (i : Z) : Prop := (0 <= i < 65536)%Z.
Definition idx_oct (i : Z) : list N := o16 (Z.to_N i).

Lemma idx_oct_bytes i : idx_ok i -> is_bytes (idx_oct i).
Proof. unfold idx_ok. intros H. apply o16_bytes. lia. Qed.

Lemma pack_int16_ok i b A R : idx_ok i -> rd b A R -> exists b', pack_int16 b i = Ok b' /\ rd b' A (R ++ bits_of_bytes (idx_oct i)).
Proof.
  unfold idx_ok. intros Hi Hb. unfold pack_int16. replace (Z.testbit i 16) with false.
  - destruct (Z.ltb_spec i 0); [lia|]. apply rd_store16; [exact Hb|lia].
  - symmetry. rewrite Z.testbit_false by lia. rewrite Z.div_small by (change (2 ^ 16)%Z with 65536%Z; lia). reflexivity.
Qed.
(** Anything else is refused. *)
Lemma pack_int16_raises i b : ~ idx_ok i -> exists e, pack_int16 b i = Err e.
Proof.
  unfold idx_ok, pack_int16. intros Hi. destruct (Z.testbit i 16); [eauto|]. destruct (Z.ltb_spec i 0); [eauto|].
  unfold bb_store16, pack_H. destruct (N.ltb_spec (Z.to_N i) 65536); [lia|]. cbn [bind]. eauto.
Qed.

Lemma unpack_int16_ok i b A R : idx_ok i -> rd b A (bits_of_bytes (idx_oct i) ++ R) ->
  exists b', unpack_int16 b = Ok (i, b') /\ rd b' (A ++ bits_of_bytes (idx_oct i)) R.
Proof.
  unfold idx_ok. intros Hi Hb. unfold unpack_int16. destruct (rd_get16 b A R (Z.to_N i) ltac:(lia) Hb) as (b1 & E1 & H1). rewrite E1. cbn [bind].
  exists b1. split; [do 2 f_equal; lia|exact H1].
Qed.

Lemma unpack_int16_inv i b A R b' : rd b A R -> unpack_int16 b = Ok (i, b') ->
  exists x R', R = x ++ R' /\ length x = 16%nat /\ rd b' (A ++ x) R'.
Proof.
  intros H E. unfold unpack_int16 in E. apply bind_ok in E. destruct E as ([v b1] & E1 & E). injection E as _ ->.
  eapply get16_inv; eauto.
Qed.

Section Strings.
  Variables (h : huffman) (ws : list (list bool)).
  Hypothesis (G : good h ws) (He : 256 < lenN ws).

  (** ** Strings *)

  Definition soct (s : str) : list N := bytes_of_bits (raw_bits ws s).

  Lemma soct_bits s : bits_of_bytes (soct s) = sbits ws 0 s.
  Proof. unfold soct, sbits. rewrite Nat.add_0_l. apply bytes_of_bits_spec. Qed.
  Lemma soct_bytes s : is_bytes (soct s).
  Proof. apply bytes_of_bits_bytes. Qed.
  Lemma soct_len s : (1 <= length (soct s))%nat.
  Proof.
    pose proof (sbits_len h ws G He 0 s) as L. rewrite <- soct_bits, bits_of_bytes_length in L. lia.
  Qed.

  Lemma pack_str1_ok s b A R : is_bytes s -> rd b A R -> exists b', pack_str1 h b s = Ok b' /\ rd b' A (R ++ bits_of_bytes (soct s)).
  Proof.
    intros Hs Hb. unfold pack_str1. rewrite (encode_ok h ws s G He (is_bytes_lt ws He s Hs)). cbn [bind].
    apply store_octets; [exact Hb|apply soct_bytes].
  Qed.

  Lemma unpack_str1_ok s b A R : is_bytes s -> (length A mod 8 = 0)%nat -> rd b A (bits_of_bytes (soct s) ++ R) ->
    exists b', unpack_str1 h b = Ok (s, b') /\ rd b' (A ++ bits_of_bytes (soct s)) R.
  Proof.
    intros Hs Ha Hb. rewrite soct_bits in *. destruct (unpack_str_ok h ws G He s 0 b A R Hs (eq_sym Ha) Hb) as (b1 & E1 & H1).
    unfold D2Wire_Model.unpack_str in E1. apply bind_ok in E1. destruct E1 as ([s0 b0] & E0 & E1). injection E1 as -> <-.
    unfold unpack_str1. rewrite E0. cbn [bind]. rewrite (proj2 (forallb_forall (fun c => c <? 256) s)).
    - eauto.
    - unfold is_bytes in Hs. rewrite Forall_forall in Hs. intros c Hc. apply N.ltb_lt, Hs, Hc.
  Qed.

  Lemma unpack_str1_inv s b A R b' : (length A mod 8 = 0)%nat -> (length R mod 8 = 0)%nat -> rd b A R -> unpack_str1 h b = Ok (s, b') ->
    exists x R', R = x ++ R' /\ length x = (8 * length (soct s))%nat /\ rd b' (A ++ x) R'.
  Proof.
    intros Ha Hr H E. unfold unpack_str1 in E. apply bind_ok in E. destruct E as ([s0 b0] & E0 & E).
    destruct (forallb _ s0); [|discriminate]. injection E as -> <-. destruct (decode_inv h ws b A R s b0 G H E0) as (R1 & -> & H1).
    set (w := raw_bits ws s) in *. set (p := pad_len (length (A ++ w))).
    assert (Hp : p = pad_len (length w)). { unfold p. apply pad_len_mod. rewrite app_length, Nat.add_mod, Ha, Nat.add_0_l, Nat.mod_mod by lia. reflexivity. }
    assert (Hw : ((length w + p) mod 8 = 0)%nat).
    { rewrite Hp. pose proof (sbits_end ws He 0 s) as L. unfold sbits in L. rewrite !Nat.add_0_l, app_length, repeat_length in L. exact L. }
    assert (Hl : (p <= length R1)%nat).
    { rewrite app_length in Hr. assert (p < 8)%nat by (unfold p, pad_len; apply Nat.mod_upper_bound; lia).
      pose proof (Nat.div_mod (length w + p) 8 ltac:(lia)). pose proof (Nat.div_mod (length w + length R1) 8 ltac:(lia)). lia. }
    exists (w ++ firstn p R1), (skipn p R1). split; [now rewrite <- app_assoc, firstn_skipn|]. split.
    - rewrite <- bits_of_bytes_length, soct_bits. unfold sbits. fold w. rewrite Nat.add_0_l, !app_length, repeat_length, firstn_length. lia.
    - rewrite app_assoc. apply rd_advance; [rewrite firstn_length; unfold p; lia|]. now rewrite firstn_skipn.
  Qed.

  (** ** Operations *)

  Definition kind_of (o : op1) : kind :=
    match o with Toggl _ => KToggl | Trang _ _ => KTrang | Clone _ _ => KClone | Kvsto _ _ => KKvsto | Eref _ _ => KEref end.
  Definition op1_ok (o : op1) : Prop :=
    match o with
    | Toggl i => idx_ok i
    | Trang i s => idx_ok i /\ idx_ok s
    | Clone i v => idx_ok i /\ is_bytes v
    | Kvsto k v | Eref k v => is_bytes k /\ is_bytes v
    end.
  Definition op_oct (o : op1) : list N :=
    match o with
    | Toggl i => idx_oct i
    | Trang i s => idx_oct i ++ idx_oct s
    | Clone i v => idx_oct i ++ soct v
    | Kvsto k v | Eref k v => soct k ++ soct v
    end.

  Lemma op_oct_len o : (2 <= length (op_oct o))%nat.
  Proof.
    destruct o as [i|i s|i v|k v|k v]; cbn [op_oct]; rewrite ?app_length; unfold idx_oct; try (cbn [o16 length]; lia);
    pose proof (soct_len k); pose proof (soct_len v); lia.
  Qed.

  Lemma op_oct_bytes o : op1_ok o -> is_bytes (op_oct o).
  Proof.
    destruct o as [i|i s|i v|k v|k v]; cbn [op_oct op1_ok]; intros H; unfold is_bytes; rewrite ?Forall_app; try destruct H as [H1 H2];
    auto using idx_oct_bytes, soct_bytes.
    - now apply idx_oct_bytes.
    - split; now apply idx_oct_bytes.
    - split; [now apply idx_oct_bytes|apply soct_bytes].
    - split; apply soct_bytes.
    - split; apply soct_bytes.
  Qed.

  Lemma write_op1_ok o b A R : op1_ok o -> rd b A R -> exists b', write_op1 h b o = Ok b' /\ rd b' A (R ++ bits_of_bytes (op_oct o)).
  Proof.
    intros Ho Hb. destruct o as [i|i s|i v|k v|k v]; cbn [op1_ok write_op1 op_oct] in *; rewrite ?bob_app, ?app_assoc.
    - now apply pack_int16_ok.
    - destruct Ho as [H1 H2]. destruct (pack_int16_ok i b A R H1 Hb) as (b1 & E1 & B1). rewrite E1. cbn [bind]. now apply pack_int16_ok.
    - destruct Ho as [H1 H2]. destruct (pack_int16_ok i b A R H1 Hb) as (b1 & E1 & B1). rewrite E1. cbn [bind]. now apply pack_str1_ok.
    - destruct Ho as [H1 H2]. destruct (pack_str1_ok k b A R H1 Hb) as (b1 & E1 & B1). rewrite E1. cbn [bind]. now apply pack_str1_ok.
    - destruct Ho as [H1 H2]. destruct (pack_str1_ok k b A R H1 Hb) as (b1 & E1 & B1). rewrite E1. cbn [bind]. now apply pack_str1_ok.
  Qed.

  Lemma mod8_app A x : (length A mod 8 = 0)%nat -> (length (A ++ bits_of_bytes x) mod 8 = 0)%nat.
  Proof. intros H. rewrite app_length, bits_of_bytes_length, Nat.mul_comm, Nat.mod_add by lia. exact H. Qed.

  Lemma read_op1_ok o b A R : op1_ok o -> (length A mod 8 = 0)%nat -> rd b A (bits_of_bytes (op_oct o) ++ R) ->
    exists b', read_op1 h (kind_of o) b = Ok (o, b') /\ rd b' (A ++ bits_of_bytes (op_oct o)) R.
  Proof.
    intros Ho Ha Hb. destruct o as [i|i s|i v|k v|k v]; cbn [op1_ok read_op1 op_oct kind_of] in *; rewrite ?bob_app in *; try rewrite <- app_assoc in Hb.
    - destruct (unpack_int16_ok i b A R Ho Hb) as (b1 & E1 & B1). rewrite E1. cbn [bind]. eauto.
    - destruct Ho as [H1 H2]. destruct (unpack_int16_ok i b A _ H1 Hb) as (b1 & E1 & B1). rewrite E1. cbn [bind].
      destruct (unpack_int16_ok s b1 _ R H2 B1) as (b2 & E2 & B2). rewrite E2. cbn [bind]. exists b2. split; [reflexivity|]. now rewrite app_assoc.
    - destruct Ho as [H1 H2]. destruct (unpack_int16_ok i b A _ H1 Hb) as (b1 & E1 & B1). rewrite E1. cbn [bind].
      destruct (unpack_str1_ok v b1 _ R H2 (mod8_app A _ Ha) B1) as (b2 & E2 & B2). rewrite E2. cbn [bind]. exists b2. split; [reflexivity|]. now rewrite app_assoc.
    - destruct Ho as [H1 H2]. destruct (unpack_str1_ok k b A _ H1 Ha Hb) as (b1 & E1 & B1). rewrite E1. cbn [bind].
      destruct (unpack_str1_ok v b1 _ R H2 (mod8_app A _ Ha) B1) as (b2 & E2 & B2). rewrite E2. cbn [bind]. exists b2. split; [reflexivity|]. now rewrite app_assoc.
    - destruct Ho as [H1 H2]. destruct (unpack_str1_ok k b A _ H1 Ha Hb) as (b1 & E1 & B1). rewrite E1. cbn [bind].
      destruct (unpack_str1_ok v b1 _ R H2 (mod8_app A _ Ha) B1) as (b2 & E2 & B2). rewrite E2. cbn [bind]. exists b2. split; [reflexivity|]. now rewrite app_assoc.
  Qed.

  Lemma mod8_split (A x R : list bool) k : (length A mod 8 = 0)%nat -> (length (x ++ R) mod 8 = 0)%nat -> length x = (8 * k)%nat ->
    (length (A ++ x) mod 8 = 0)%nat /\ (length R mod 8 = 0)%nat.
  Proof.
    intros Ha Hr Hx. rewrite app_length in *. rewrite Hx in *. rewrite Nat.mul_comm in *. rewrite Nat.mod_add by lia. split; [exact Ha|].
    rewrite Nat.add_comm, Nat.mod_add in Hr by lia. exact Hr.
  Qed.

  (** Reading an operation consumes exactly as many octets as writing it takes. *)
  Lemma read_op1_inv k o b A R b' : (length A mod 8 = 0)%nat -> (length R mod 8 = 0)%nat -> rd b A R -> read_op1 h k b = Ok (o, b') ->
    kind_of o = k /\ exists x R', R = x ++ R' /\ length x = (8 * length (op_oct o))%nat /\ rd b' (A ++ x) R'.
  Proof.
    intros Ha Hr H E.
    assert (I : forall i b A R b', rd b A R -> unpack_int16 b = Ok (i, b') -> exists x R', R = x ++ R' /\ length x = (8 * length (idx_oct i))%nat /\ rd b' (A ++ x) R').
    { intros. unfold idx_oct. cbn [o16 length]. eapply unpack_int16_inv; eauto. }
    destruct k; cbn [read_op1] in E; apply bind_ok in E; destruct E as ([u b1] & E1 & E);
      try (apply bind_ok in E; destruct E as ([v b2] & E2 & E)); injection E as <- <-; (split; [reflexivity|]); cbn [op_oct].
    - eapply I; eauto.
    - destruct (I _ _ _ _ _ H E1) as (x & R1 & -> & Lx & H1). destruct (I _ _ _ _ _ H1 E2) as (y & R2 & -> & Ly & H2).
      exists (x ++ y), R2. rewrite !app_length. rewrite <- !app_assoc in *. split; [reflexivity|]. split; [lia|exact H2].
    - destruct (I _ _ _ _ _ H E1) as (x & R1 & -> & Lx & H1). destruct (mod8_split A x R1 _ Ha Hr Lx) as [Ha1 Hr1].
      destruct (unpack_str1_inv _ _ _ _ _ Ha1 Hr1 H1 E2) as (y & R2 & -> & Ly & H2).
      exists (x ++ y), R2. rewrite !app_length. rewrite <- !app_assoc in *. split; [reflexivity|]. split; [lia|exact H2].
    - destruct (unpack_str1_inv _ _ _ _ _ Ha Hr H E1) as (x & R1 & -> & Lx & H1). destruct (mod8_split A x R1 _ Ha Hr Lx) as [Ha1 Hr1].
      destruct (unpack_str1_inv _ _ _ _ _ Ha1 Hr1 H1 E2) as (y & R2 & -> & Ly & H2).
      exists (x ++ y), R2. rewrite !app_length. rewrite <- !app_assoc in *. split; [reflexivity|]. split; [lia|exact H2].
    - destruct (unpack_str1_inv _ _ _ _ _ Ha Hr H E1) as (x & R1 & -> & Lx & H1). destruct (mod8_split A x R1 _ Ha Hr Lx) as [Ha1 Hr1].
      destruct (unpack_str1_inv _ _ _ _ _ Ha1 Hr1 H1 E2) as (y & R2 & -> & Ly & H2).
      exists (x ++ y), R2. rewrite !app_length. rewrite <- !app_assoc in *. split; [reflexivity|]. split; [lia|exact H2].
  Qed.

  Definition ops_oct (ops : list op1) : list N := flat_map op_oct ops.

  Lemma ops_oct_bytes ops : Forall op1_ok ops -> is_bytes (ops_oct ops).
  Proof. induction 1 as [|o r Ho HF IH]; [constructor|]. cbn [ops_oct flat_map]. apply Forall_app. split; [now apply op_oct_bytes|exact IH]. Qed.

  Lemma write_ops1_ok ops : Forall op1_ok ops -> forall b A R, rd b A R -> exists b', write_ops1 h b ops = Ok b' /\ rd b' A (R ++ bits_of_bytes (ops_oct ops)).
  Proof.
    induction 1 as [|o r Ho HF IH]; intros b A R Hb; cbn [write_ops1 ops_oct flat_map].
    - exists b. cbn. rewrite app_nil_r. auto.
    - destruct (write_op1_ok o b A R Ho Hb) as (b1 & E1 & B1). rewrite E1. cbn [bind]. destruct (IH b1 A _ B1) as (b2 & E2 & B2).
      exists b2. split; [exact E2|]. rewrite bob_app, app_assoc. exact B2.
  Qed.

  Lemma read_ops1_ok k ops : Forall (fun o => kind_of o = k /\ op1_ok o) ops -> forall b A R, (length A mod 8 = 0)%nat -> rd b A (bits_of_bytes (ops_oct ops) ++ R) ->
    exists b', read_ops1 (length ops) h k b = Ok (ops, b') /\ rd b' (A ++ bits_of_bytes (ops_oct ops)) R.
  Proof.
    induction 1 as [|o r [Hk Ho] HF IH]; intros b A R Ha Hb; cbn [length read_ops1 ops_oct flat_map] in *.
    - exists b. cbn. rewrite app_nil_r. auto.
    - rewrite bob_app, <- app_assoc in Hb. destruct (read_op1_ok o b A _ Ho Ha Hb) as (b1 & E1 & B1). rewrite Hk in E1. rewrite E1. cbn [bind].
      destruct (IH b1 _ R (mod8_app A _ Ha) B1) as (b2 & E2 & B2). rewrite E2. cbn [bind]. exists b2. split; [reflexivity|]. rewrite bob_app, app_assoc. exact B2.
  Qed.

  Lemma read_ops1_inv k n : forall ops b A R b', (length A mod 8 = 0)%nat -> (length R mod 8 = 0)%nat -> rd b A R -> read_ops1 n h k b = Ok (ops, b') ->
    length ops = n /\ Forall (fun o => kind_of o = k) ops /\ exists x R', R = x ++ R' /\ length x = (8 * length (ops_oct ops))%nat /\ rd b' (A ++ x) R'.
  Proof.
    induction n as [|n IH]; intros ops b A R b' Ha Hr H E; cbn [read_ops1] in E.
    - injection E as <- <-. split; [reflexivity|]. split; [constructor|]. exists [], R. rewrite app_nil_r. auto.
    - apply bind_ok in E. destruct E as ([o b1] & E1 & E). apply bind_ok in E. destruct E as ([r b2] & E2 & E). injection E as <- <-.
      destruct (read_op1_inv k o b A R b1 Ha Hr H E1) as (Hk & x & R1 & -> & Lx & H1). destruct (mod8_split A x R1 _ Ha Hr Lx) as [Ha1 Hr1].
      destruct (IH r b1 _ _ b2 Ha1 Hr1 H1 E2) as (Hn & HF & y & R2 & -> & Ly & H2). split; [cbn; lia|]. split; [now constructor|].
      exists (x ++ y), R2. cbn [ops_oct flat_map]. fold (ops_oct r). rewrite !app_length. rewrite <- !app_assoc in *. split; [reflexivity|]. split; [lia|exact H2].
  Qed.

  (** ** Chunks *)

  Definition chunk := (kind * list op1)%type.
  Definition chunk_ok (c : chunk) : Prop := Forall (fun o => kind_of o = fst c /\ op1_ok o) (snd c).
  (** What OutputOps writes: nothing for no operation. *)
  Definition chunk_oct (c : chunk) : list N :=
    match snd c with [] => [] | _ => [kind_val (fst c); N.min 256 (lenN (snd c)) - 1] ++ ops_oct (snd c) end.
  Definition chunks_oct (cs : list chunk) : list N := flat_map chunk_oct cs.

  Lemma kind_val_lt k : kind_val k < 256.
  Proof. now destruct k. Qed.
  Lemma val_kind_val k : val_kind (kind_val k) = Ok k.
  Proof. now destruct k. Qed.

  Lemma chunk_all_ok c : chunk_ok c -> Forall op1_ok (snd c).
  Proof. intros H. eapply Forall_impl; [|exact H]. cbn. tauto. Qed.

  Lemma output_ops1_ok c b A R : chunk_ok c -> rd b A R ->
    exists b', output_ops1 h b (snd c) (fst c) = Ok b' /\ rd b' A (R ++ bits_of_bytes (chunk_oct c)) /\ is_bytes (chunk_oct c).
  Proof.
    intros Hc Hb. apply chunk_all_ok in Hc. destruct c as [k ops]. unfold chunk_oct, output_ops1. cbn [fst snd] in *. destruct ops as [|o r].
    - exists b. cbn. rewrite app_nil_r. split; [reflexivity|]. split; [exact Hb|constructor].
    - destruct (rd_store8 b A R (kind_val k) Hb (kind_val_lt k)) as (b1 & E1 & B1). rewrite E1. cbn [bind].
      destruct (rd_store8 b1 A _ (N.min 256 (lenN (o :: r)) - 1) B1 ltac:(lia)) as (b2 & E2 & B2). rewrite E2. cbn [bind].
      destruct (write_ops1_ok _ Hc b2 A _ B2) as (b3 & E3 & B3). exists b3. split; [exact E3|]. rewrite !bob_app. split.
      + cbn [bits_of_bytes flat_map]. rewrite app_nil_r, !app_assoc. exact B3.
      + apply Forall_app. split; [|now apply ops_oct_bytes]. constructor; [apply kind_val_lt|constructor; [lia|constructor]].
  Qed.

  Lemma output_kinds_ok cs : Forall chunk_ok cs -> forall b A R, rd b A R ->
    exists b', output_kinds h b cs = Ok b' /\ rd b' A (R ++ bits_of_bytes (chunks_oct cs)) /\ is_bytes (chunks_oct cs).
  Proof.
    induction 1 as [|[k ops] r Hc HF IH]; intros b A R Hb; cbn [output_kinds chunks_oct flat_map].
    - exists b. cbn. rewrite app_nil_r. split; [reflexivity|]. split; [exact Hb|constructor].
    - destruct (output_ops1_ok _ b A R Hc Hb) as (b1 & E1 & B1 & F1). cbn [fst snd] in E1. rewrite E1. cbn [bind].
      destruct (IH b1 A _ B1) as (b2 & E2 & B2 & F2). exists b2. split; [exact E2|]. rewrite bob_app, app_assoc. split; [exact B2|]. apply Forall_app. now split.
  Qed.

  Definition nonempty (cs : list chunk) : list chunk := filter (fun c => match snd c with [] => false | _ => true end) cs.
  Lemma chunks_nonempty cs : chunks_oct (nonempty cs) = chunks_oct cs.
  Proof.
    induction cs as [|[k ops] r IH]; [reflexivity|]. cbn [nonempty filter snd]. destruct ops as [|o ops]; cbn [chunks_oct flat_map]; unfold nonempty, chunks_oct in *; rewrite IH; reflexivity.
  Qed.
  Lemma ops_nonempty cs : flat_map snd (nonempty cs) = flat_map snd cs.
  Proof.
    induction cs as [|[k ops] r IH]; [reflexivity|]. cbn [nonempty filter snd flat_map]. destruct ops as [|o ops]; cbn [flat_map snd]; unfold nonempty in *; rewrite IH; reflexivity.
  Qed.

  Lemma rd_remaining b A R : rd b A R -> remaining b = Z.of_nat (length R).
  Proof. intros H. unfold remaining. rewrite (rd_num _ _ _ H). pose proof (rd_pos _ _ _ H). lia. Qed.

  Lemma read_chunk1_ok k ops b A R : chunk_ok (k, ops) -> (1 <= length ops <= 256)%nat -> (length A mod 8 = 0)%nat -> rd b A (bits_of_bytes (chunk_oct (k, ops)) ++ R) ->
    exists b', read_chunk1 h b = Ok (ops, b') /\ rd b' (A ++ bits_of_bytes (chunk_oct (k, ops))) R.
  Proof.
    intros Hc Hl Ha Hb. assert (Eo : chunk_oct (k, ops) = [kind_val k] ++ [lenN ops - 1] ++ ops_oct ops).
    { unfold chunk_oct. cbn [fst snd]. destruct ops; [cbn in Hl; lia|]. rewrite N.min_r by (unfold lenN; lia). reflexivity. }
    rewrite Eo in *. rewrite !bob_app, !bob_one in *. rewrite <- !app_assoc in *. unfold read_chunk1.
    destruct (rd_get8 b A _ (kind_val k) (kind_val_lt k) Hb) as (b1 & E1 & B1). rewrite E1. cbn [bind].
    destruct (rd_get8 b1 _ _ (lenN ops - 1) ltac:(unfold lenN; lia) B1) as (b2 & E2 & B2). rewrite E2. cbn [bind]. rewrite val_kind_val. cbn [bind].
    replace (S (N.to_nat (lenN ops - 1))) with (length ops) by (unfold lenN; lia).
    assert (Ha2 : (length ((A ++ bits_of 8 (kind_val k)) ++ bits_of 8 (lenN ops - 1)) mod 8 = 0)%nat).
    { rewrite !app_length, !bits_of_length. replace (length A + 8 + 8)%nat with (length A + 2 * 8)%nat by lia. rewrite Nat.mod_add by lia. exact Ha. }
    destruct (read_ops1_ok k ops Hc b2 _ R Ha2 B2) as (b3 & E3 & B3). exists b3. split; [exact E3|]. now rewrite !app_assoc in *.
  Qed.

  Lemma chunk_oct_len c : snd c <> [] -> (4 <= length (chunk_oct c))%nat.
  Proof.
    intros H. unfold chunk_oct. destruct c as [k [|o r]]; [now contradiction H|]. cbn [snd fst app length ops_oct flat_map]. rewrite app_length.
    pose proof (op_oct_len o). lia.
  Qed.

  (** A whole frame: chunks are read as long as more than sixteen bits are said to
      be left. *)
  Fixpoint kept1 (len : Z) (cs : list chunk) : list chunk :=
    match cs with
    | [] => []
    | c :: r => if (16 <? len)%Z then c :: kept1 (len - 8 * Z.of_nat (length (chunk_oct c))) r else []
    end.

  Lemma read_frame1_ok cs : Forall (fun c => chunk_ok c /\ (1 <= length (snd c) <= 256)%nat) cs -> forall fuel len b A R acc,
    (length A mod 8 = 0)%nat -> rd b A (bits_of_bytes (chunks_oct cs) ++ R) -> (len <= 8 * Z.of_nat (length (chunks_oct cs)))%Z -> (length cs < fuel)%nat ->
    exists b', read_frame1 fuel h len b acc = Ok (acc ++ flat_map snd (kept1 len cs), b').
  Proof.
    induction 1 as [|[k ops] r [Hc Hl] HF IH]; intros fuel len b A R acc Ha Hb Hz Hf; (destruct fuel as [|f]; [cbn in Hf; lia|]); cbn [read_frame1 chunks_oct flat_map kept1] in *.
    - cbn in Hz. destruct (Z.ltb_spec 16 len) as [L|_]; [lia|]. exists b. now rewrite app_nil_r.
    - fold (chunks_oct r) in *. cbn [fst snd] in *. rewrite bob_app, <- app_assoc in Hb. rewrite app_length in Hz.
      destruct (Z.ltb_spec 16 len) as [_|_]; [|exists b; cbn; now rewrite app_nil_r].
      destruct (read_chunk1_ok k ops b A _ Hc Hl Ha Hb) as (b1 & E1 & B1).
      rewrite E1. cbn [bind]. rewrite (rd_remaining _ _ _ Hb), (rd_remaining _ _ _ B1), app_length, bits_of_bytes_length.
      replace (len - _)%Z with (len - 8 * Z.of_nat (length (chunk_oct (k, ops))))%Z by (rewrite !app_length; lia).
      destruct (IH f (len - 8 * Z.of_nat (length (chunk_oct (k, ops))))%Z b1 _ R (acc ++ ops) (mod8_app A _ Ha) B1 ltac:(lia) ltac:(cbn in Hf; lia)) as (b2 & E2).
      exists b2. rewrite E2. cbn [flat_map snd]. now rewrite <- app_assoc.
  Qed.

  Lemma kept1_all cs : Forall (fun c : chunk => snd c <> []) cs -> kept1 (8 * Z.of_nat (length (chunks_oct cs))) cs = cs.
  Proof.
    induction 1 as [|c r Hc HF IH]; [reflexivity|]. cbn [kept1 chunks_oct flat_map]. fold (chunks_oct r). rewrite app_length. pose proof (chunk_oct_len c Hc).
    destruct (Z.ltb_spec 16 (8 * Z.of_nat (length (chunk_oct c) + length (chunks_oct r)))) as [_|L]; [|lia]. f_equal.
    replace (8 * Z.of_nat (length (chunk_oct c) + length (chunks_oct r)) - 8 * Z.of_nat (length (chunk_oct c)))%Z with (8 * Z.of_nat (length (chunks_oct r)))%Z by lia.
    exact IH.
  Qed.

  (** Whatever reading a frame gives, it comes in chunks of at most 256 whose
      sizes add up. *)
  Lemma read_frame1_inv fuel : forall len b A R acc ops b', (length A mod 8 = 0)%nat -> (length R mod 8 = 0)%nat -> rd b A R ->
    read_frame1 fuel h len b acc = Ok (ops, b') ->
    exists cs : list chunk, ops = acc ++ flat_map snd cs /\ Forall (fun c => (length (snd c) <= 256)%nat /\ Forall (fun o => kind_of o = fst c) (snd c)) cs /\
      (16 * length cs + 8 * length (ops_oct (flat_map snd cs)) <= length R)%nat.
  Proof.
    induction fuel as [|f IH]; intros len b A R acc ops b' Ha Hr H E; cbn [read_frame1] in E; (destruct (16 <? len)%Z;
      [|injection E as <- <-; exists []; cbn; rewrite app_nil_r; repeat split; [constructor|lia]]); [discriminate|].
    apply bind_ok in E. destruct E as ([l b1] & E1 & E). unfold read_chunk1 in E1.
    apply bind_ok in E1. destruct E1 as ([v b2] & Ev & E1). apply bind_ok in E1. destruct E1 as ([c b3] & Ec & E1). apply bind_ok in E1. destruct E1 as (k & _ & E1).
    destruct (get8_inv _ _ _ _ _ H Ev) as (x & R1 & -> & Lx & _ & H1). destruct (mod8_split A x R1 1 Ha Hr Lx) as [Ha1 Hr1].
    destruct (get8_inv _ _ _ _ _ H1 Ec) as (y & R2 & -> & Ly & Hc & H2). destruct (mod8_split _ y R2 1 Ha1 Hr1 Ly) as [Ha2 Hr2].
    destruct (read_ops1_inv k _ l b3 _ _ b1 Ha2 Hr2 H2 E1) as (Hn & HF & z & R3 & -> & Lz & H3). destruct (mod8_split _ z R3 _ Ha2 Hr2 Lz) as [Ha3 Hr3].
    destruct (IH _ _ _ _ _ _ _ Ha3 Hr3 H3 E) as (cs & -> & HF' & Hlen). exists ((k, l) :: cs). cbn [flat_map snd]. split; [now rewrite app_assoc|].
    split; [constructor; [split; [cbn; lia|exact HF]|exact HF']|]. unfold ops_oct in *. rewrite flat_map_app. cbn [length]. rewrite !app_length. lia.
  Qed.
End Strings.
