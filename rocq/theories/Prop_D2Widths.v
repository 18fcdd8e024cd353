(** * Property C105: what delta2's README says of its index parameters.

    compressor/delta2/README.md lines 12-16 against
    compressor/delta2/spdy4_codec_impl.py lines 231-243 and 787-823. *)
From Coq Require Import String List NArith ZArith Bool Arith Lia ZifyN ZifyNat.
From Verif Require Import PyBase NBits Bits BB_Model BB_Spec BB_Proofs Prop_BB BB_Read D2Huff_Model D2Huff_Proofs D2Huff_Dict Prop_D2Huff
  D2Wire_Model D2Wire_Proofs D2Store_Model D2Code_Model Params_Model Prop_Params PyStr.
Import ListNotations.
Open Scope N_scope.
Open Scope py_scope.

(** ** Specification *)

(** The number of bits of an index: four below fifteen, and else four and four for
    each group of three bits of what is left after fifteen, one group at least. *)
Definition takes (v : N) (bits : nat) : Prop :=
  (v < 15 /\ bits = 4%nat) \/
  (15 <= v < 23 /\ bits = 8%nat) \/
  exists k, (2 <= k)%nat /\ 15 + 8 ^ (N.of_nat k - 1) <= v < 15 + 8 ^ N.of_nat k /\ bits = (4 + 4 * k)%nat.

(** README line 16: "For values <= 15, 4 bits will be used. For values >15 and <=
    255, 12 bits will be used. For values >255 and <= 16535, 28 bits will be used,
    and for values >16535, 60 bits will be used." *)
Definition readme_bits (v : N) : nat :=
  if v <=? 15 then 4 else if v <=? 255 then 12 else if v <=? 16535 then 28 else 60.

(** ** Proofs *)

Lemma vbits_length f : forall v, v < 2 ^ N.of_nat f ->
  (v < 8 /\ length (vbits f v) = 4%nat) \/
  exists k, (2 <= k)%nat /\ 8 ^ (N.of_nat k - 1) <= v < 8 ^ N.of_nat k /\ length (vbits f v) = (4 * k)%nat.
Proof.
  induction f as [|f IH]; intros v Hv; cbn [vbits].
  - change (2 ^ N.of_nat 0) with 1 in Hv. destruct (N.ltb_spec 7 v); [lia|]. left. rewrite bits_of_length. lia.
  - destruct (N.ltb_spec 7 v) as [L|L]; [|left; rewrite bits_of_length; lia]. right.
    assert (P : v / 8 < 2 ^ N.of_nat f) by (rewrite pow2_S in Hv; pose proof (N.div_mod v 8); lia).
    pose proof (N.div_mod v 8 ltac:(lia)) as DM. pose proof (N.mod_lt v 8 ltac:(lia)) as ML.
    destruct (IH _ P) as [[A B]|(k & K & A & B)].
    + exists 2%nat. split; [lia|]. split; [change (8 ^ (N.of_nat 2 - 1)) with 8; change (8 ^ N.of_nat 2) with 64; lia|].
      rewrite app_length, bits_of_length, B. reflexivity.
    + exists (S k). split; [lia|]. split.
      * replace (N.of_nat (S k) - 1) with (N.succ (N.of_nat k - 1)) by lia. replace (N.of_nat (S k)) with (N.succ (N.of_nat k)) by lia.
        rewrite !N.pow_succ_r'. clear - A DM ML. revert A. generalize (8 ^ (N.of_nat k - 1)) (8 ^ N.of_nat k). intros p q A. lia.
      * rewrite app_length, bits_of_length, B. lia.
Qed.

Lemma varint_takes v : takes v (length (varint_bits v)).
Proof.
  unfold takes, varint_bits. destruct (N.ltb_spec v 15) as [L|L]; [left; now rewrite bits_of_length|]. right.
  rewrite app_length, bits_of_length.
  destruct (vbits_length (N.size_nat v) (v - 15) ltac:(pose proof (size_nat_gt v); lia)) as [[A B]|(k & K & A & B)].
  - left. rewrite B. lia.
  - right. exists k. split; [exact K|]. rewrite B. split; [|reflexivity]. lia.
Qed.

Lemma pow8_le a b : a <= b -> 8 ^ a <= 8 ^ b.
Proof. intros H. apply N.pow_le_mono_r; lia. Qed.

Lemma takes_unique v a b : takes v a -> takes v b -> a = b.
Proof.
  assert (P : forall k, (2 <= k)%nat -> 8 <= 8 ^ (N.of_nat k - 1)).
  { intros k K. change 8 with (8 ^ 1) at 1. apply pow8_le. lia. }
  intros [[A ->]|[[A ->]|(k & K & A & ->)]] [[B ->]|[[B ->]|(l & L & B & ->)]]; try reflexivity; try lia;
    try (specialize (P _ K)); try (specialize (P _ L)); try lia.
  assert (k = l); [|lia]. destruct (Nat.lt_trichotomy k l) as [C|[C|C]]; [exfalso|exact C|exfalso].
  - pose proof (pow8_le (N.of_nat k) (N.of_nat l - 1) ltac:(lia)). lia.
  - pose proof (pow8_le (N.of_nat l) (N.of_nat k - 1) ltac:(lia)). lia.
Qed.

(** An index written with varint_encoding takes the bits above, at every alignment
    of what has been written before. *)
Theorem C105_index_bits : forall ops a b, Forall mop_ok ops -> bb_run bb_new ops = Ok (a, b) -> at_end b ->
  forall v : N, exists b1 bits, pack_varint b (Z.of_N v) = Ok b1 /\ takes v bits /\ bb_num b1 = (bb_num b + bits)%nat.
Proof.
  intros ops a b HF Hrun Hend v. destruct (at_end_rd ops a b HF Hrun Hend) as (A & HA).
  destruct (pack_varint_ok v b A [] HA) as (b1 & E1 & B1). exists b1, (length (varint_bits v)). split; [exact E1|].
  split; [apply varint_takes|]. rewrite (rd_num _ _ _ B1), (rd_num _ _ _ HA), !app_length. cbn [length app]. lia.
Qed.
Print Assumptions C105_index_bits.

(** The README is right about an index exactly when it is below fifteen, or from 23
    to 78, or so large that the codec never has one. *)
Theorem C105_readme : forall v, takes v (readme_bits v) <-> v < 15 \/ 23 <= v < 79 \/ 15 + 2 ^ 39 <= v < 15 + 2 ^ 42.
Proof.
  intros v. unfold readme_bits. split.
  - intros T. destruct T as [[A E]|[[A E]|(k & K & A & E)]]; [now left| |].
    + exfalso. destruct (N.leb_spec v 15); [discriminate|]. destruct (N.leb_spec v 255); [discriminate|]. lia.
    + right. destruct (N.leb_spec v 15) as [B|B]; [lia|]. destruct (N.leb_spec v 255) as [C|C].
      * assert (k = 2%nat) by lia. subst k. change (8 ^ (N.of_nat 2 - 1)) with 8 in A. change (8 ^ N.of_nat 2) with 64 in A. lia.
      * destruct (N.leb_spec v 16535) as [D|D].
        { exfalso. assert (k = 6%nat) by lia. subst k. change (8 ^ (N.of_nat 6 - 1)) with 32768 in A. lia. }
        { right. assert (k = 14%nat) by lia. subst k. change (8 ^ (N.of_nat 14 - 1)) with (2 ^ 39) in A. change (8 ^ N.of_nat 14) with (2 ^ 42) in A. exact A. }
  - unfold takes. change (2 ^ 39) with 549755813888. change (2 ^ 42) with 4398046511104. intros [A|[A|A]].
    + left. split; [exact A|]. destruct (N.leb_spec v 15); [reflexivity|lia].
    + right. right. exists 2%nat. split; [lia|]. change (8 ^ (N.of_nat 2 - 1)) with 8. change (8 ^ N.of_nat 2) with 64. split; [lia|].
      destruct (N.leb_spec v 15); [lia|]. destruct (N.leb_spec v 255); [reflexivity|lia].
    + right. right. exists 14%nat. split; [lia|]. change (8 ^ (N.of_nat 14 - 1)) with 549755813888. change (8 ^ N.of_nat 14) with 4398046511104.
      split; [lia|]. destruct (N.leb_spec v 15); [lia|]. destruct (N.leb_spec v 255); [lia|]. destruct (N.leb_spec v 16535); [lia|reflexivity].
Qed.
Print Assumptions C105_readme.

(** So 15 takes eight bits and not four, 100 takes sixteen and not twelve, 300
    sixteen and not twenty-eight. *)
Theorem C105_readme_refuted : exists v, ~ takes v (readme_bits v).
Proof. exists 15. intros T. apply C105_readme in T. change (2 ^ 39) with 549755813888 in T. lia. Qed.
Print Assumptions C105_readme_refuted.

Example C105_widths :
  map (fun v => let* (_, b) := bb_run bb_new [MStore [160] 3; MGet 3] in
                let* b1 := pack_varint b (Z.of_N v) in Ok (bb_num b1 - bb_num b, readme_bits v)%nat)
    [14; 15; 22; 23; 78; 100; 255; 300; 20000] =
  map Ok [(4, 4); (8, 4); (8, 12); (12, 12); (12, 12); (16, 12); (16, 12); (16, 28); (24, 60)]%nat.
Proof. vm_compute. reflexivity. Qed.

(** ** How indices are written, by parameters *)

(** small_index alone does not make indices one octet long: they are so only if
    varint_encoding is switched off as well; two octets need both switched off. *)
Theorem C105_index_width : forall ps o, d2_params ps = Ok o ->
  forall varint small, field ps (lit "varint_encoding") true (says_true true) varint ->
                       field ps (lit "small_index") true (says_true true) small ->
  c_width (config o) = if varint then VarInt else if small then Int8 else Int16.
Proof.
  intros ps o H vi si Hv Hs. apply C92_delta2 in H. destruct H as (_ & _ & A & B & _).
  apply is_true_spec in A, B, Hv, Hs. assert (EA : o_small_index o = si) by congruence. assert (EB : o_varint o = vi) by congruence. unfold config. rewrite EA, EB.
  destruct si, vi; reflexivity.
Qed.
Print Assumptions C105_index_width.

(** A parameter of any other name does nothing, wherever it stands. *)
Definition d2_names : list str :=
  map lit ["max_byte_size"; "max_entries"; "small_index"; "varint_encoding"; "hg_adjust"; "implicit_hg_add"; "refcnt_vals";
           "only_etoggles"; "idx_from_end"]%string.

Lemma other_absent a p b n m v : named p m v -> m <> n -> absent (a ++ p :: b) n <-> absent (a ++ b) n.
Proof.
  intros Hp N. split; intros A q w I; [apply A; rewrite in_app_iff in *; cbn [In]; tauto|].
  rewrite in_app_iff in I. cbn [In] in I. destruct I as [I|[<-|I]]; [apply A; rewrite in_app_iff; tauto| |apply A; rewrite in_app_iff; tauto].
  intros Hq. apply named_spec in Hp, Hq. congruence.
Qed.

Lemma other_given a p b n m v w : named p m v -> m <> n -> given (a ++ p :: b) n w <-> given (a ++ b) n w.
Proof.
  intros Hp N. apply named_spec in Hp. induction a as [|x a IH]; cbn [app]; rewrite !given_cons.
  - split; [intros [G|[_ E]]; [exact G|congruence]|auto].
  - rewrite IH. apply named_spec in Hp. now rewrite (other_absent a p b n m v Hp N).
Qed.

Lemma other_field {A} a p b n m v (d : A) says x : named p m v -> m <> n -> field (a ++ p :: b) n d says x <-> field (a ++ b) n d says x.
Proof.
  intros Hp N. unfold field. rewrite (other_absent a p b n m v Hp N). split; (intros [H|(w & G & S)]; [now left|right; exists w]).
  - now rewrite (other_given a p b n m v w Hp N) in G.
  - now rewrite (other_given a p b n m v w Hp N).
Qed.

Theorem C105_other_names : forall a p b n v, named p n v -> ~ In n d2_names ->
  forall o, d2_params (a ++ p :: b) = Ok o <-> d2_params (a ++ b) = Ok o.
Proof.
  intros a p b n v Hp Hn o. rewrite !C92_delta2. unfold d2_names in Hn. cbn [map In] in Hn.
  rewrite !(other_field a p b _ n v _ _ _ Hp) by (let E := fresh in intros E; symmetry in E; tauto). reflexivity.
Qed.
Print Assumptions C105_other_names.

(** README line 12 calls one parameter "implict_hg_add": written so it does nothing. *)
Theorem C105_implict_hg_add_refuted : exists o, d2_params [lit "implict_hg_add=1"] = Ok o /\ o_implicit_hg_add o = false /\
  exists o', d2_params [lit "implicit_hg_add=1"] = Ok o' /\ o_implicit_hg_add o' = true.
Proof.
  exists default_options. split; [vm_compute; reflexivity|]. split; [reflexivity|].
  eexists. split; [vm_compute; reflexivity|reflexivity].
Qed.
Print Assumptions C105_implict_hg_add_refuted.

Example C105_index_widths :
  map (fun ps => let* o := d2_params (map lit ps) in Ok (c_width (config o)))
    [[]; ["small_index=1"]; ["small_index=0"]; ["varint_encoding=0"]; ["varint_encoding=0"; "small_index=false"]; ["varint_encoding=yes"];
     ["varint_encoding"]]%string =
  map Ok [VarInt; VarInt; VarInt; Int8; Int16; Int8; VarInt].
Proof. vm_compute. reflexivity. Qed.
