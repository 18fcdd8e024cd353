(** * delta2's frames: from instructions to octets and back. *)
From Coq Require Import List NArith ZArith Bool Arith Lia ZifyN ZifyNat.
From Verif Require Import PyBase NBits Bits BB_Model BB_Spec BB_Proofs BB_Read D2Huff_Model D2Huff_Proofs D2Wire_Model D2Wire_Proofs.
Import ListNotations.
Open Scope N_scope.
Open Scope py_scope.
Ltac Zify.zify_post_hook ::= Z.div_mod_to_equations.

Lemma bob_app a b : bits_of_bytes (a ++ b) = bits_of_bytes a ++ bits_of_bytes b.
Proof. apply flat_map_app. Qed.
Lemma bob_one v : bits_of_bytes [v] = bits_of 8 v.
Proof. cbn [bits_of_bytes flat_map]. apply app_nil_r. Qed.

(** The header of a frame. *)
Definition hdr (len flags sid gid typ : N) : list N :=
  o16 len ++ [typ] ++ [flags] ++ o32 (N.lor 0x80000000 sid) ++ [gid].

Lemma hdr_length len flags sid gid typ : length (hdr len flags sid gid typ) = 9%nat.
Proof. reflexivity. Qed.
Lemma hdr_bytes len flags sid gid typ : len < 65536 -> flags < 256 -> N.lor 0x80000000 sid < 2 ^ 32 -> gid < 256 -> typ < 256 ->
  is_bytes (hdr len flags sid gid typ).
Proof.
  intros H1 H2 H3 H4 H5. unfold hdr, is_bytes. rewrite !Forall_app. 
  split; [now apply o16_bytes|]. split; [now repeat constructor|]. split; [now repeat constructor|]. split; [now apply o32_bytes|now repeat constructor].
Qed.

Lemma boilerplate_ok len flags sid gid typ b A R : len < 65536 -> flags < 256 -> N.lor 0x80000000 sid < 2 ^ 32 -> gid < 256 -> typ < 256 -> rd b A R ->
  exists b', boilerplate b len flags sid gid typ = Ok b' /\ rd b' A (R ++ bits_of_bytes (hdr len flags sid gid typ)).
Proof.
  intros H1 H2 H3 H4 H5 Hb. unfold boilerplate.
  destruct (rd_store16 b A R len Hb H1) as (b1 & E1 & B1). rewrite E1. cbn [bind].
  destruct (rd_store8 b1 A _ typ B1 H5) as (b2 & E2 & B2). rewrite E2. cbn [bind].
  destruct (rd_store8 b2 A _ flags B2 H2) as (b3 & E3 & B3). rewrite E3. cbn [bind].
  destruct (rd_store32 b3 A _ _ B3 H3) as (b4 & E4 & B4). rewrite E4. cbn [bind].
  destruct (rd_store8 b4 A _ gid B4 H4) as (b5 & E5 & B5). exists b5. split; [exact E5|].
  unfold hdr. rewrite !bob_app, !bob_one, !app_assoc. exact B5.
Qed.

(** Whole octets may be stored from a longer list: the rest comes along. *)
Lemma store_long b inp k k' : bb_store b inp (8 * k) = bb_store b inp (8 * k').
Proof.
  unfold bb_store. destruct inp as [|x inp]; [reflexivity|].
  assert (M : (forall k, (8 * k) mod 8 = 0)%nat) by (intros j; rewrite Nat.mul_comm; apply Nat.mod_mul; lia).
  assert (M2 : (forall o k, (o + 8 * k) mod 8 = o mod 8)%nat) by (intros o j; rewrite Nat.mul_comm; apply Nat.mod_add; lia).
  now rewrite !M, !M2.
Qed.

Lemma store_octets b A R inp k : rd b A R -> is_bytes inp -> exists b', bb_store b inp (8 * k) = Ok b' /\ rd b' A (R ++ bits_of_bytes inp).
Proof.
  intros Hb Hi. rewrite (store_long b inp k (length inp)).
  destruct (rd_store b A R inp (8 * length inp) Hb Hi) as (b' & E & B).
  - unfold bytes_for. apply Nat.div_unique with (r := 7%nat); lia.
  - exists b'. split; [exact E|]. rewrite firstn_all2 in B by (rewrite bits_of_bytes_length; lia). exact B.
Qed.

Lemma sid_ok : N.lor 0x80000000 0xffff < 2 ^ 32.
Proof. reflexivity. Qed.

Lemma frames_ok gid : gid < 256 -> forall fuel payload b A R, is_bytes payload -> (length payload < fuel)%nat -> rd b A R ->
  exists b' x, frames fuel b payload (lenN payload) 65527 0xffff gid = Ok b' /\ is_bytes x /\
    rd b' A (R ++ bits_of_bytes (hdr (N.min (lenN payload) 65527) 1 0xffff gid 8 ++ payload ++ x)) /\
    (lenN payload <= 65527 -> x = []).
Proof.
  intros Hg. induction fuel as [|f IH]; intros payload b A R Hp Hf Hb; [lia|]. cbn [frames]. cbv zeta.
  set (c := N.min (lenN payload) 65527). destruct (N.leb_spec c (lenN payload)) as [_|L]; [|unfold c in L; lia].
  destruct (boilerplate_ok c 1 0xffff gid 8 b A R ltac:(unfold c; lia) ltac:(lia) sid_ok Hg ltac:(lia) Hb) as (b1 & E1 & B1). rewrite E1. cbn [bind].
  destruct (store_octets b1 A _ payload (N.to_nat c) B1 Hp) as (b2 & E2 & B2). rewrite E2. cbn [bind].
  rewrite <- app_assoc, <- bob_app in B2. destruct (N.leb_spec (lenN payload) 65527) as [L|L].
  - exists b2, []. split; [reflexivity|]. split; [constructor|]. rewrite app_nil_r. split; [exact B2|reflexivity].
  - assert (Hsk : is_bytes (skipn (N.to_nat c) payload)).
    { unfold is_bytes in *. rewrite <- (firstn_skipn (N.to_nat c) payload) in Hp. apply Forall_app in Hp. apply Hp. }
    assert (Hlen : lenN payload - 65527 = lenN (skipn (N.to_nat c) payload)) by (unfold c, lenN in *; rewrite skipn_length; clear -L; lia).
    rewrite Hlen. assert (Hsl : (length (skipn (N.to_nat c) payload) < f)%nat).
    { clear IH. rewrite skipn_length. unfold c, lenN in *. clear -Hf L. lia. }
    destruct (IH (skipn (N.to_nat c) payload) b2 A _ Hsk Hsl B2) as (b3 & x & E3 & Hx & B3 & _).
    exists b3. eexists. split; [exact E3|]. split; [|split; [|intros C; apply N.lt_nge in L; contradiction]].
    2:{ rewrite <- !app_assoc, <- bob_app, <- !app_assoc in B3. exact B3. }
    unfold is_bytes. rewrite !Forall_app. split; [|split; [exact Hsk|exact Hx]].
    apply hdr_bytes; try reflexivity; try exact Hg. lia.
Qed.

Lemma copy_bits b W : rd b [] W -> exists b', bb_store bb_new (bb_out b) (bb_num b) = Ok b' /\ rd b' [] W.
Proof.
  intros H. destruct (rd_out _ _ _ H) as [-> _]. rewrite (rd_num _ _ _ H). cbn [app length Nat.add].
  apply (rd_store_bits bb_new [] [] W wr_new).
Qed.

Section Frames.
  Variables (h : huffman) (ws : list (list bool)).
  Hypothesis (G : good h ws) (He : 256 < lenN ws).

  (** The payload of a message. *)
  Definition payload (w : iwidth) (is : instructions) : list N := bytes_of_bits (cbits ws w 0 (cut is)).

  Lemma payload_bytes w is : is_bytes (payload w is).
  Proof. apply bytes_of_bits_bytes. Qed.

  Lemma to_wire_ok w is gid : Forall (kind_ok w) is -> gid < 256 ->
    exists x, is_bytes x /\ to_wire w h is gid = Ok (hdr (N.min (lenN (payload w is)) 65527) 1 0xffff gid 8 ++ payload w is ++ x) /\
      (lenN (payload w is) <= 65527 -> x = []).
  Proof.
    intros Hk Hg. unfold to_wire, serialize.
    destruct (output_all_ok h ws G He w is Hk bb_new [] [] wr_new) as (pb & E0 & B0 & F0 & C0). rewrite E0. cbn [bind].
    unfold bb_all. destruct (rd_out _ _ _ B0) as [Eo _]. rewrite Eo, (rd_num _ _ _ B0). cbn [app length Nat.add]. fold (payload w is).
    destruct (boilerplate_ok 0 0 0 gid 0 bb_new [] [] ltac:(reflexivity) ltac:(reflexivity) ltac:(reflexivity) Hg ltac:(reflexivity) wr_new) as (fb & Ef & Bf).
    rewrite Ef. cbn [bind]. cbv zeta.
    assert (Efb : bb_bytes fb = 9%nat).
    { unfold bb_bytes. rewrite (rd_num _ _ _ Bf). cbn [app]. rewrite bits_of_bytes_length, hdr_length. reflexivity. }
    rewrite Efb. change (65536 - N.of_nat 9) with 65527.
    replace (N.of_nat ((length (cbits ws w 0 (cut is)) + 7) / 8)) with (lenN (payload w is)) by (unfold lenN, payload; rewrite bytes_of_bits_len; reflexivity).
    destruct (frames_ok gid Hg (S (length (payload w is))) (payload w is) bb_new [] [] (payload_bytes w is) ltac:(lia) wr_new) as (b & x & E & Hx & B & Hz).
    rewrite E. cbn [bind app] in *. exists x. split; [exact Hx|]. split; [|exact Hz].
    destruct (copy_bits b _ B) as (d & Ed & Bd). rewrite Ed. cbn [bind fst]. f_equal.
    destruct (rd_out _ _ _ Bd) as [-> _]. cbn [app]. apply bytes_of_bits_of_bytes. unfold is_bytes. rewrite !Forall_app.
    split; [|split; [apply payload_bytes|exact Hx]]. apply hdr_bytes; try reflexivity; try exact Hg. lia.
  Qed.

  Lemma payload_bits w is : bits_of_bytes (payload w is) = cbits ws w 0 (cut is) ++ repeat false (pad_len (length (cbits ws w 0 (cut is)))).
  Proof. apply bytes_of_bits_spec. Qed.

  (** Whatever follows the payload is ignored. *)
  Lemma from_wire_any w is gid x : Forall (kind_ok w) is -> gid < 256 -> is_bytes x ->
    from_wire w h (hdr (N.min (lenN (payload w is)) 65527) 1 0xffff gid 8 ++ payload w is ++ x) =
    Ok (gid, flat_map snd (kept ws w 72 (8 * Z.of_N (N.min (lenN (payload w is)) 65527)) (cut is))).
  Proof.
    intros Hk Hg Hx. remember (hdr (N.min (lenN (payload w is)) 65527) 1 0xffff gid 8 ++ payload w is ++ x) as blob eqn:Hbl.
    set (len := N.min (lenN (payload w is)) 65527) in *. assert (Hlen : len < 65536) by lia.
    assert (Hby : is_bytes blob).
    { rewrite Hbl. unfold is_bytes. rewrite !Forall_app. split; [|split; [apply payload_bytes|exact Hx]]. apply hdr_bytes; try reflexivity; assumption. }
    unfold from_wire. destruct (store_octets bb_new [] [] blob (length blob) wr_new Hby) as (b0 & E0 & B0). rewrite E0. cbn [bind app] in *.
    unfold deserialize, bb_all. destruct (copy_bits b0 _ B0) as (b & Ec & B). rewrite Ec. cbn [bind read_frames].
    rewrite Hbl in B. unfold hdr in B. rewrite !bob_app, !bob_one, <- !app_assoc in B.
    destruct (rd_get16 b [] _ len Hlen B) as (b1 & E1 & B1). rewrite E1. cbn [bind].
    destruct (rd_get8 b1 _ _ 8 ltac:(reflexivity) B1) as (b2 & E2 & B2). rewrite E2. cbn [bind].
    destruct (rd_get8 b2 _ _ 1 ltac:(reflexivity) B2) as (b3 & E3 & B3). rewrite E3. cbn [bind].
    destruct (rd_get32 b3 _ _ _ sid_ok B3) as (b4 & E4 & B4). rewrite E4. cbn [bind].
    destruct (rd_get8 b4 _ _ gid Hg B4) as (b5 & E5 & B5). rewrite E5. cbn [bind].
    rewrite payload_bits in B5. rewrite <- (app_assoc (cbits ws w 0 (cut is))) in B5. rewrite (cbits_mod ws He w (cut is) 0 72 eq_refl) in B5.
    destruct (output_all_ok h ws G He w is Hk bb_new [] [] wr_new) as (_ & _ & _ & Hch & _).
    match type of B5 with rd _ ?A (_ ++ ?R) =>
      destruct (read_frame_ok h ws G He w (cut is) Hch (S (bb_num b5)) 72 (Z.of_N len * 8) b5 A R []) as (b6 & E6); [reflexivity|exact B5| | |] end.
    - pose proof (f_equal (@length bool) (payload_bits w is)) as L. rewrite bits_of_bytes_length, app_length, repeat_length in L.
      rewrite (cbits_mod ws He w (cut is) 0 72 eq_refl) in L. unfold len, lenN.
      assert (pad_len (length (cbits ws w 72 (cut is))) < 8)%nat by (unfold pad_len; apply Nat.mod_upper_bound; lia). lia.
    - rewrite (rd_num _ _ _ B5), !app_length. pose proof (cbits_count ws He w (cut is) 72). lia.
    - rewrite E6. cbn [bind app]. change (1 =? 0) with false. cbv iota. rewrite Z.mul_comm. reflexivity.
  Qed.

  Theorem from_wire_ok w is gid blob : Forall (kind_ok w) is -> gid < 256 -> to_wire w h is gid = Ok blob ->
    from_wire w h blob = Ok (gid, flat_map snd (kept ws w 72 (8 * Z.of_N (N.min (lenN (payload w is)) 65527)) (cut is))).
  Proof.
    intros Hk Hg Eb. destruct (to_wire_ok w is gid Hk Hg) as (x & Hx & E & _).
    assert (Hbl : blob = hdr (N.min (lenN (payload w is)) 65527) 1 0xffff gid 8 ++ payload w is ++ x) by congruence.
    rewrite Hbl. now apply from_wire_any.
  Qed.

  Theorem roundtrip_ok w is gid blob : Forall (kind_ok w) is -> gid < 256 -> to_wire w h is gid = Ok blob -> (N.of_nat (length blob) <= 65536) ->
    from_wire w h blob = Ok (gid, flat_map snd is).
  Proof.
    intros Hk Hg Eb Hl. rewrite (from_wire_ok w is gid blob Hk Hg Eb). do 2 f_equal.
    destruct (to_wire_ok w is gid Hk Hg) as (x & _ & E & _).
    assert (Hbl : blob = hdr (N.min (lenN (payload w is)) 65527) 1 0xffff gid 8 ++ payload w is ++ x) by congruence.
    rewrite Hbl, app_length, hdr_length, app_length in Hl.
    destruct (output_all_ok h ws G He w is Hk bb_new [] [] wr_new) as (_ & _ & _ & Hch & C).
    rewrite <- C. f_equal. apply (kept_all h ws G He w (cut is) Hch).
    pose proof (f_equal (@length bool) (payload_bits w is)) as L. rewrite bits_of_bytes_length, app_length, repeat_length in L.
    rewrite (cbits_mod ws He w (cut is) 0 72 eq_refl) in L. unfold lenN. lia.
  Qed.
End Frames.
