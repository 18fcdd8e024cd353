(** * delta v1's frames: from instructions to octets and back. *)
From Coq Require Import List NArith ZArith Bool Arith Lia ZifyN ZifyNat Permutation.
From Verif Require Import PyBase NBits Bits BB_Model BB_Spec BB_Proofs BB_Read D2Huff_Model D2Huff_Proofs D2Wire_Proofs D2Wire_Frame.
From Verif Require Import D1Wire_Model D1Wire_Proofs.
Import ListNotations.
Open Scope N_scope.
Open Scope py_scope.
Ltac Zify.zify_post_hook ::= Z.div_mod_to_equations.

(** The header of a frame. *)
Definition hdr1 (len flags sid gid typ : N) : list N :=
  o16 len ++ [flags] ++ o32 (N.lor 0x80000000 sid) ++ [typ] ++ [gid].

Lemma hdr1_length len flags sid gid typ : length (hdr1 len flags sid gid typ) = 9%nat.
Proof. reflexivity. Qed.
Lemma hdr1_bytes len flags sid gid typ : len < 65536 -> flags < 256 -> N.lor 0x80000000 sid < 2 ^ 32 -> gid < 256 -> typ < 256 ->
  is_bytes (hdr1 len flags sid gid typ).
Proof.
  intros H1 H2 H3 H4 H5. unfold hdr1, is_bytes. rewrite !Forall_app.
  split; [now apply o16_bytes|]. split; [now repeat constructor|]. split; [now apply o32_bytes|]. split; now repeat constructor.
Qed.

Lemma boilerplate1_ok len flags sid gid typ b A R : len < 65536 -> flags < 256 -> N.lor 0x80000000 sid < 2 ^ 32 -> gid < 256 -> typ < 256 -> rd b A R ->
  exists b', boilerplate1 b len flags sid gid typ = Ok b' /\ rd b' A (R ++ bits_of_bytes (hdr1 len flags sid gid typ)).
Proof.
  intros H1 H2 H3 H4 H5 Hb. unfold boilerplate1.
  destruct (rd_store16 b A R len Hb H1) as (b1 & E1 & B1). rewrite E1. cbn [bind].
  destruct (rd_store8 b1 A _ flags B1 H2) as (b2 & E2 & B2). rewrite E2. cbn [bind].
  destruct (rd_store32 b2 A _ _ B2 H3) as (b3 & E3 & B3). rewrite E3. cbn [bind].
  destruct (rd_store8 b3 A _ typ B3 H5) as (b4 & E4 & B4). rewrite E4. cbn [bind].
  destruct (rd_store8 b4 A _ gid B4 H4) as (b5 & E5 & B5). exists b5. split; [exact E5|].
  unfold hdr1. rewrite !bob_app, !bob_one, !app_assoc. exact B5.
Qed.

Lemma sid1_ok : N.lor 0x80000000 1234 < 2 ^ 32.
Proof. reflexivity. Qed.

Lemma frames1_ok gid : gid < 256 -> forall fuel payload b A R, is_bytes payload -> (length payload < fuel)%nat -> rd b A R ->
  exists b' x, frames1 fuel b payload (lenN payload) 65527 1234 gid = Ok b' /\ is_bytes x /\
    rd b' A (R ++ bits_of_bytes (hdr1 (N.min (lenN payload) 65527) 1 1234 gid 8 ++ payload ++ x)) /\
    (lenN payload <= 65527 -> x = []).
Proof.
  intros Hg. induction fuel as [|f IH]; intros payload b A R Hp Hf Hb; [lia|]. cbn [frames1]. cbv zeta.
  set (c := N.min (lenN payload) 65527). destruct (N.leb_spec c (lenN payload)) as [_|L]; [|unfold c in L; lia].
  destruct (boilerplate1_ok c 1 1234 gid 8 b A R ltac:(unfold c; lia) ltac:(lia) sid1_ok Hg ltac:(lia) Hb) as (b1 & E1 & B1). rewrite E1. cbn [bind].
  destruct (store_octets b1 A _ payload (N.to_nat c) B1 Hp) as (b2 & E2 & B2). rewrite E2. cbn [bind].
  rewrite <- app_assoc, <- bob_app in B2. destruct (N.leb_spec (lenN payload) 65527) as [L|L].
  - exists b2, []. split; [reflexivity|]. split; [constructor|]. rewrite app_nil_r. split; [exact B2|reflexivity].
  - assert (Hsk : is_bytes (skipn (N.to_nat c) payload)).
    { unfold is_bytes in *. rewrite <- (firstn_skipn (N.to_nat c) payload) in Hp. apply Forall_app in Hp. apply Hp. }
    assert (Hlen : lenN payload - 65527 = lenN (skipn (N.to_nat c) payload)) by (unfold c, lenN in *; rewrite skipn_length; clear -L; lia).
    rewrite Hlen. assert (Hsl : (length (skipn (N.to_nat c) payload) < f)%nat).
    { clear IH. rewrite skipn_length. unfold c, lenN in *. clear -Hf L. lia. }
    destruct (IH (skipn (N.to_nat c) payload) b2 A _ Hsk Hsl B2) as (b3 & x & E3 & Hx & B3 & _).
    exists b3. eexists. split; [exact E3|]. split; [|split; [|intros C; apply N.lt_nge in L; contradiction]].
    2:{ rewrite <- !app_assoc, <- bob_app, <- !app_assoc in B3. exact B3. }
    unfold is_bytes. rewrite !Forall_app. split; [|split; [exact Hsk|exact Hx]].
    apply hdr1_bytes; try reflexivity; try exact Hg. lia.
Qed.

(** ** Merging toggles *)

(** The indices of the single toggles and of the ranges (first, last). *)
Definition range_idx (r : Z * Z) : list Z := map (fun n => (fst r + Z.of_nat n)%Z) (seq 0 (Z.to_nat (snd r - fst r + 1))).
Definition all_idx (ot : list Z) (otr : list (Z * Z)) : list Z := ot ++ flat_map range_idx otr.

Lemma insert_z_perm x l : Permutation (insert_z x l) (x :: l).
Proof. induction l as [|y r IH]; cbn [insert_z]; [reflexivity|]. destruct (x <=? y)%Z; [reflexivity|]. rewrite IH. apply perm_swap. Qed.
Lemma sort_z_perm l : Permutation (sort_z l) l.
Proof. induction l as [|x r IH]; [constructor|]. cbn [sort_z fold_right]. fold (sort_z r). rewrite insert_z_perm. now constructor. Qed.

Lemma range_extend s e : (s <= e)%Z -> range_idx (s, e + 1)%Z = range_idx (s, e) ++ [(e + 1)%Z].
Proof.
  intros H. unfold range_idx. cbn [fst snd]. replace (Z.to_nat (e + 1 - s + 1)) with (Z.to_nat (e - s + 1) + 1)%nat by lia.
  rewrite seq_app, map_app. cbn [seq map]. do 2 f_equal. lia.
Qed.
Lemma range_two s : range_idx (s, s + 1)%Z = [s; (s + 1)%Z].
Proof. unfold range_idx. cbn [fst snd]. replace (Z.to_nat (s + 1 - s + 1)) with 2%nat by lia. cbn [seq map].
  assert (Q : forall a b c d : Z, a = c -> b = d -> [a; b] = [c; d]) by congruence. apply Q; lia. Qed.

Lemma merge_toggles_ok ts : forall ot otr, Forall (fun r => (fst r < snd r)%Z) otr ->
  let (ot', otr') := merge_toggles ts ot otr in
  Permutation (all_idx ot' otr') (ts ++ all_idx ot otr) /\ Forall (fun r => (fst r < snd r)%Z) otr'.
Proof.
  assert (P1 : forall (idx : Z) ts ot X, Permutation (ts ++ (idx :: ot) ++ X) ((idx :: ts) ++ ot ++ X)).
  { intros. cbn [app]. symmetry. apply Permutation_middle. }
  assert (P2 : forall (t : Z) ts ot otr, Permutation (ts ++ ot ++ range_idx (t, t + 1)%Z ++ otr) (((t + 1)%Z :: ts) ++ (t :: ot) ++ otr)).
  { clear ts. intros t ts ot otr. rewrite range_two. cbn [app].
    refine (perm_trans (Permutation_app_head ts (perm_trans (Permutation_sym (Permutation_middle ot _ t)) (perm_skip t (Permutation_sym (Permutation_middle ot _ (t + 1)%Z))))) _).
    exact (perm_trans (Permutation_app_head ts (perm_swap _ _ _)) (Permutation_sym (Permutation_middle ts _ _))). }
  assert (P3 : forall s e ts ot otr, (s < e)%Z -> Permutation (ts ++ ot ++ range_idx (s, e + 1)%Z ++ otr) (((e + 1)%Z :: ts) ++ ot ++ range_idx (s, e) ++ otr)).
  { clear ts. intros s e ts ot otr Hse. rewrite range_extend by lia. rewrite <- app_assoc. cbn [app].
    rewrite (app_assoc ot), (app_assoc ts). rewrite (app_assoc ot (range_idx (s, e)) otr), (app_assoc ts (ot ++ range_idx (s, e)) otr).
    symmetry. apply Permutation_middle. }
  induction ts as [|idx ts IH]; intros ot otr HF; cbn [merge_toggles]; [split; [reflexivity|exact HF]|].
  assert (St : forall ot1 otr1, Forall (fun r => (fst r < snd r)%Z) otr1 -> Permutation (ts ++ all_idx ot1 otr1) ((idx :: ts) ++ all_idx ot otr) ->
    let (ot', otr') := merge_toggles ts ot1 otr1 in Permutation (all_idx ot' otr') ((idx :: ts) ++ all_idx ot otr) /\ Forall (fun r => (fst r < snd r)%Z) otr').
  { intros ot1 otr1 H1 HP. specialize (IH ot1 otr1 H1). destruct (merge_toggles ts ot1 otr1) as [a b]. destruct IH as [I1 I2]. split; [now rewrite I1|exact I2]. }
  unfold all_idx in *. destruct otr as [|[s e] otr'].
  - destruct ot as [|t ot']; [apply St; [constructor|apply P1]|]. destruct (Z.eqb_spec (idx - t) 1) as [E|_].
    + assert (idx = t + 1)%Z by lia. subst idx. apply St; [repeat constructor; cbn; lia|]. cbn [flat_map]. apply P2.
    + apply St; [constructor|apply P1].
  - inversion HF as [|r0 l0 Hr HF']; subst. cbn [fst snd] in Hr. destruct (Z.eqb_spec (idx - e) 1) as [E|_].
    + assert (idx = e + 1)%Z by lia. subst idx. apply St; [constructor; [cbn; lia|exact HF']|]. cbn [flat_map]. apply P3, Hr.
    + destruct ot as [|t ot']; [apply St; [exact HF|apply P1]|]. destruct (Z.eqb_spec (idx - t) 1) as [E|_].
      * assert (idx = t + 1)%Z by lia. subst idx. apply St; [constructor; [cbn; lia|exact HF]|]. cbn [flat_map]. apply P2.
      * apply St; [exact HF|apply P1].
Qed.

(** The single toggles and the ranges are the given indices, each as often as
    given. *)
Theorem toggle_ranges_ok toggl ot otr : toggle_ranges toggl = (ot, otr) ->
  Permutation (all_idx ot otr) toggl /\ Forall (fun r => (fst r < snd r)%Z) otr.
Proof.
  unfold toggle_ranges. pose proof (merge_toggles_ok (sort_z toggl) [] [] (Forall_nil _)) as H. destruct (merge_toggles (sort_z toggl) [] []) as [a b].
  intros E. injection E as <- <-. destruct H as [H1 H2]. split; [|now apply Forall_rev].
  unfold all_idx in *. cbn [flat_map app] in H1. rewrite app_nil_r in H1. rewrite sort_z_perm in H1.
  transitivity (a ++ flat_map range_idx b); [|exact H1]. apply Permutation_app; [symmetry; apply Permutation_rev|].
  rewrite <- (Permutation_rev b). reflexivity.
Qed.

Lemma range_ends r : (fst r < snd r)%Z -> In (fst r) (range_idx r) /\ In (snd r) (range_idx r).
Proof.
  intros H. unfold range_idx. split; apply in_map_iff; [exists 0%nat|exists (Z.to_nat (snd r - fst r))]; (split; [lia|apply in_seq; lia]).
Qed.

(** ** Messages *)

(** Everything fits its field. *)
Record instr_ok (i : instr) : Prop := {
  io_toggl : Forall idx_ok (i_toggl i);
  io_clone : Forall (fun c => idx_ok (fst c) /\ is_bytes (snd c)) (i_clone i);
  io_kvsto : Forall (fun c => is_bytes (fst c) /\ is_bytes (snd c)) (i_kvsto i);
  io_eref : Forall (fun c => is_bytes (fst c) /\ is_bytes (snd c)) (i_eref i)
}.

Lemma wire_kinds_ok i : instr_ok i -> Forall chunk_ok (wire_kinds i).
Proof.
  intros [H1 H2 H3 H4]. unfold wire_kinds. destruct (toggle_ranges (i_toggl i)) as [ot otr] eqn:E.
  destruct (toggle_ranges_ok _ _ _ E) as [HP HF].
  assert (Hall : Forall idx_ok (all_idx ot otr)) by (eapply Permutation_Forall; [symmetry; exact HP|exact H1]).
  apply Forall_app in Hall. destruct Hall as [Ha Hb]. unfold chunk_ok. repeat constructor; cbn [fst snd].
  - apply Forall_map. eapply Forall_impl; [|exact Ha]. now cbn.
  - apply Forall_map. rewrite Forall_forall in *. intros [s e] Hin. cbn. split; [reflexivity|]. specialize (HF _ Hin). destruct (range_ends _ HF) as [I1 I2].
    split; apply Hb; apply in_flat_map; exists (s, e); auto.
  - apply Forall_map. eapply Forall_impl; [|exact H2]. intros [k v]. now cbn.
  - apply Forall_map. eapply Forall_impl; [|exact H3]. intros [k v]. now cbn.
  - apply Forall_map. eapply Forall_impl; [|exact H4]. intros [k v]. now cbn.
Qed.

Definition at_most_256 (i : instr) : Prop := Forall (fun c => (length (snd c) <= 256)%nat) (wire_kinds i).

Section Frames.
  Variables (h : huffman) (ws : list (list bool)).
  Hypothesis (G : good h ws) (He : 256 < lenN ws).

  Definition payload1 (i : instr) : list N := chunks_oct ws (wire_kinds i).

  Lemma payload1_bytes i : instr_ok i -> is_bytes (payload1 i).
  Proof. intros Hi. destruct (output_kinds_ok h ws G He (wire_kinds i) (wire_kinds_ok i Hi) bb_new [] [] wr_new) as (_ & _ & _ & H). exact H. Qed.

  Lemma to_wire1_ok i gid : instr_ok i -> gid < 256 ->
    exists x, is_bytes x /\ to_wire1 h i gid = Ok (hdr1 (N.min (lenN (payload1 i)) 65527) 1 1234 gid 8 ++ payload1 i ++ x) /\
      (lenN (payload1 i) <= 65527 -> x = []).
  Proof.
    intros Hi Hg. pose proof (payload1_bytes i Hi) as Hp. unfold to_wire1, serialize1.
    destruct (output_kinds_ok h ws G He (wire_kinds i) (wire_kinds_ok i Hi) bb_new [] [] wr_new) as (pb & E0 & B0 & _). rewrite E0. cbn [bind].
    unfold bb_all. destruct (rd_out _ _ _ B0) as [Eo _]. rewrite Eo, (rd_num _ _ _ B0). cbn [app length Nat.add]. fold (payload1 i).
    rewrite bytes_of_bits_of_bytes by exact Hp. rewrite bits_of_bytes_length.
    destruct (boilerplate1_ok 0 0 0 gid 0 bb_new [] [] ltac:(reflexivity) ltac:(reflexivity) ltac:(reflexivity) Hg ltac:(reflexivity) wr_new) as (fb & Ef & Bf).
    rewrite Ef. cbn [bind]. cbv zeta.
    assert (Efb : bb_bytes fb = 9%nat).
    { unfold bb_bytes. rewrite (rd_num _ _ _ Bf). cbn [app]. rewrite bits_of_bytes_length, hdr1_length. reflexivity. }
    rewrite Efb. change (65536 - N.of_nat 9) with 65527.
    replace (N.of_nat ((8 * length (payload1 i) + 7) / 8)) with (lenN (payload1 i)) by (unfold lenN; lia).
    destruct (frames1_ok gid Hg (S (length (payload1 i))) (payload1 i) bb_new [] [] Hp ltac:(lia) wr_new) as (b & x & E & Hx & B & Hz).
    rewrite E. cbn [bind app] in *. exists x. split; [exact Hx|]. split; [|exact Hz].
    destruct (copy_bits b _ B) as (d & Ed & Bd). rewrite Ed. cbn [bind fst]. f_equal.
    destruct (rd_out _ _ _ Bd) as [-> _]. cbn [app]. apply bytes_of_bits_of_bytes. unfold is_bytes. rewrite !Forall_app.
    split; [|split; [exact Hp|exact Hx]]. apply hdr1_bytes; try reflexivity; try exact Hg. lia.
  Qed.

  (** Reading the header of a message. *)
  Lemma from_wire1_head i gid blob : instr_ok i -> gid < 256 -> to_wire1 h i gid = Ok blob ->
    exists b A x, rd b A (bits_of_bytes (payload1 i ++ x)) /\ (length A mod 8 = 0)%nat /\ is_bytes x /\ (lenN (payload1 i) <= 65527 -> x = []) /\
      length blob = (9 + length (payload1 i) + length x)%nat /\
      from_wire1 h blob = let* (ops, b) := read_frame1 (S (bb_num b)) h (Z.of_N (N.min (lenN (payload1 i)) 65527) * 8) b [] in Ok (gid, ops).
  Proof.
    intros Hi Hg Eb. destruct (to_wire1_ok i gid Hi Hg) as (x & Hx & E & Hz).
    assert (Hbl : blob = hdr1 (N.min (lenN (payload1 i)) 65527) 1 1234 gid 8 ++ payload1 i ++ x) by congruence. clear E Eb.
    set (len := N.min (lenN (payload1 i)) 65527) in *. assert (Hlen : len < 65536) by lia.
    assert (Hby : is_bytes blob).
    { rewrite Hbl. unfold is_bytes. rewrite !Forall_app. split; [|split; [now apply payload1_bytes|exact Hx]]. apply hdr1_bytes; try reflexivity; assumption. }
    unfold from_wire1. destruct (store_octets bb_new [] [] blob (length blob) wr_new Hby) as (b0 & E0 & B0). rewrite E0. cbn [bind app] in *.
    unfold deserialize1, bb_all. destruct (copy_bits b0 _ B0) as (b & Ec & B). rewrite Ec. cbn [bind read_frames1].
    rewrite Hbl in B. unfold hdr1 in B. rewrite !bob_app, !bob_one, <- !app_assoc in B.
    destruct (rd_get16 b [] _ len Hlen B) as (b1 & E1 & B1). rewrite E1. cbn [bind].
    destruct (rd_get8 b1 _ _ 1 ltac:(reflexivity) B1) as (b2 & E2 & B2). rewrite E2. cbn [bind].
    destruct (rd_get32 b2 _ _ _ sid1_ok B2) as (b3 & E3 & B3). rewrite E3. cbn [bind].
    destruct (rd_get8 b3 _ _ 8 ltac:(reflexivity) B3) as (b4 & E4 & B4). rewrite E4. cbn [bind].
    destruct (rd_get8 b4 _ _ gid Hg B4) as (b5 & E5 & B5). rewrite E5. cbn [bind].
    change (1 =? 0) with false. cbv iota. rewrite <- bob_app in B5.
    match type of B5 with rd _ ?A _ => exists b5, A, x end. split; [exact B5|]. split; [|split; [exact Hx|split; [exact Hz|split; [|reflexivity]]]].
    - rewrite !app_length, !bits_of_bytes_length, !bits_of_length. reflexivity.
    - rewrite Hbl, !app_length, hdr1_length. lia.
  Qed.

  Lemma nonempty_ok i : instr_ok i -> at_most_256 i -> Forall (fun c => chunk_ok c /\ (1 <= length (snd c) <= 256)%nat) (nonempty (wire_kinds i)).
  Proof.
    intros Hi Hm. pose proof (wire_kinds_ok i Hi) as Hk. unfold at_most_256 in Hm. rewrite Forall_forall in *. intros c Hc. unfold nonempty in Hc. apply filter_In in Hc. destruct Hc as [Hc Hn].
    split; [now apply Hk|]. specialize (Hm c Hc). cbn beta in Hm. split; [destruct (snd c); [discriminate|cbn; lia]|exact Hm].
  Qed.

  (** What arrives, when no kind has more than 256 operations. *)
  Theorem from_wire1_ok i gid blob : instr_ok i -> gid < 256 -> at_most_256 i -> to_wire1 h i gid = Ok blob ->
    from_wire1 h blob = Ok (gid, flat_map snd (kept1 ws (8 * Z.of_N (N.min (lenN (payload1 i)) 65527)) (nonempty (wire_kinds i)))).
  Proof.
    intros Hi Hg Hm Eb. destruct (from_wire1_head i gid blob Hi Hg Eb) as (b & A & x & B & Ha & Hx & _ & _ & ->).
    unfold payload1 in B at 1. rewrite <- chunks_nonempty, bob_app in B.
    destruct (read_frame1_ok h ws G He (nonempty (wire_kinds i)) (nonempty_ok i Hi Hm) (S (bb_num b)) (Z.of_N (N.min (lenN (payload1 i)) 65527) * 8) b A _ [] Ha B) as (b' & E).
    - rewrite chunks_nonempty. fold (payload1 i). unfold lenN. lia.
    - rewrite (rd_num _ _ _ B), app_length, bits_of_bytes_length.
      assert (L : forall cs : list chunk, Forall (fun c => snd c <> []) cs -> (length cs <= length (chunks_oct ws cs))%nat).
      { induction 1 as [|c r Hc HF IH]; [cbn; lia|]. cbn [chunks_oct flat_map length]. rewrite app_length. pose proof (chunk_oct_len h ws G He c Hc). unfold chunks_oct in IH. lia. }
      specialize (L (nonempty (wire_kinds i))). rewrite Forall_forall in L.
      assert (length (nonempty (wire_kinds i)) <= length (chunks_oct ws (nonempty (wire_kinds i))))%nat; [|lia].
      apply L. intros c Hc. unfold nonempty in Hc. apply filter_In in Hc. destruct Hc as [_ Hn]. intros C. rewrite C in Hn. discriminate.
    - rewrite E. cbn [bind app]. now rewrite (Z.mul_comm (Z.of_N _)).
  Qed.

  (** Everything arrives when it fits into one frame. *)
  Theorem roundtrip1_ok i gid blob : instr_ok i -> gid < 256 -> at_most_256 i -> to_wire1 h i gid = Ok blob -> (N.of_nat (length blob) <= 65536) ->
    from_wire1 h blob = Ok (gid, flat_map snd (wire_kinds i)).
  Proof.
    intros Hi Hg Hm Eb Hl. rewrite (from_wire1_ok i gid blob Hi Hg Hm Eb). do 2 f_equal.
    destruct (from_wire1_head i gid blob Hi Hg Eb) as (b & A & x & _ & _ & _ & _ & El & _).
    rewrite <- (ops_nonempty (wire_kinds i)). f_equal. rewrite N.min_l by (unfold lenN; lia). unfold payload1. rewrite <- chunks_nonempty.
    replace (Z.of_N (lenN (chunks_oct ws (nonempty (wire_kinds i))))) with (Z.of_nat (length (chunks_oct ws (nonempty (wire_kinds i))))) by (unfold lenN; lia).
    apply (kept1_all h ws G He). apply Forall_forall. intros c Hc. unfold nonempty in Hc. apply filter_In in Hc. destruct Hc as [_ Hn]. intros C. rewrite C in Hn. discriminate.
  Qed.

  (** ** More than 256 of a kind *)

  Definition kind_eqb (a b : kind) : bool := kind_val a =? kind_val b.
  Lemma kind_eqb_spec a b : reflect (a = b) (kind_eqb a b).
  Proof. destruct a, b; cbn; constructor; congruence. Qed.
  Definition count (k : kind) (ops : list op1) : nat := length (filter (fun o => kind_eqb (kind_of o) k) ops).
  Definition chunk_count (k : kind) (cs : list chunk) : nat := length (filter (fun c : chunk => kind_eqb (fst c) k) cs).

  Lemma count_app k a b : count k (a ++ b) = (count k a + count k b)%nat.
  Proof. unfold count. now rewrite filter_app, app_length. Qed.
  Lemma count_kind k k' ops : Forall (fun o => kind_of o = k') ops -> count k ops = if kind_eqb k' k then length ops else 0%nat.
  Proof.
    unfold count. induction 1 as [|o r Ho HF IH]; cbn [filter length]; [now destruct (kind_eqb k' k)|]. rewrite Ho. destruct (kind_eqb k' k); cbn [length]; now rewrite IH.
  Qed.

  Lemma chunks_enough k cs : Forall (fun c : chunk => (length (snd c) <= 256)%nat /\ Forall (fun o => kind_of o = fst c) (snd c)) cs ->
    (count k (flat_map snd cs) <= 256 * chunk_count k cs)%nat.
  Proof.
    unfold chunk_count. induction 1 as [|c r [Hl Hk] HF IH]; cbn [flat_map filter]; [cbn; lia|]. rewrite count_app, (count_kind k (fst c)) by exact Hk.
    destruct (kind_eqb (fst c) k); cbn [length]; lia.
  Qed.
  Lemma chunk_count_all (cs : list chunk) :
    (chunk_count KToggl cs + chunk_count KTrang cs + chunk_count KClone cs + chunk_count KKvsto cs + chunk_count KEref cs = length cs)%nat.
  Proof. unfold chunk_count. induction cs as [|[k ops] r IH]; [reflexivity|]. cbn [filter fst length]. destruct k; cbn; lia. Qed.

  Lemma ops_oct_app a b : ops_oct ws (a ++ b) = ops_oct ws a ++ ops_oct ws b.
  Proof. apply flat_map_app. Qed.

  (** With more than 256 operations of a kind the operations sent are never
      what arrives. *)
  Theorem over_256_lost i gid blob g : instr_ok i -> gid < 256 -> ~ at_most_256 i -> to_wire1 h i gid = Ok blob -> (N.of_nat (length blob) <= 65536) ->
    from_wire1 h blob <> Ok (g, flat_map snd (wire_kinds i)).
  Proof.
    intros Hi Hg Hm Eb Hl E. destruct (from_wire1_head i gid blob Hi Hg Eb) as (b & A & x & B & Ha & Hx & Hz & El & Ef).
    rewrite (Hz ltac:(unfold lenN; lia)), app_nil_r in B. rewrite Ef in E. apply bind_ok in E. destruct E as ([ops b'] & E & E'). injection E' as -> ->.
    destruct (read_frame1_inv h ws G He _ _ _ _ _ _ _ _ Ha ltac:(rewrite bits_of_bytes_length, Nat.mul_comm; apply Nat.mod_mul; lia) B E) as (cs & Ecs & HF & Hlen).
    cbn [app] in Ecs. rewrite bits_of_bytes_length in Hlen.
    pose proof (wire_kinds_ok i Hi) as Hk. unfold at_most_256 in Hm. unfold payload1 in Hlen.
    pose proof (chunks_enough KToggl cs HF) as C1. pose proof (chunks_enough KTrang cs HF) as C2. pose proof (chunks_enough KClone cs HF) as C3.
    pose proof (chunks_enough KKvsto cs HF) as C4. pose proof (chunks_enough KEref cs HF) as C5. pose proof (chunk_count_all cs) as C6.
    rewrite <- Ecs in *. clear Ecs E Ef. unfold wire_kinds in *. destruct (toggle_ranges (i_toggl i)) as [ot otr].
    set (l1 := map Toggl ot) in *. set (l2 := map (fun '(s, e) => Trang e s) otr) in *. set (l3 := map (fun '(k, v) => Clone k v) (i_clone i)) in *.
    set (l4 := map (fun '(k, v) => Kvsto k v) (i_kvsto i)) in *. set (l5 := map (fun '(k, v) => Eref k v) (i_eref i)) in *.
    assert (K : forall k l, In (k, l) [(KToggl, l1); (KTrang, l2); (KClone, l3); (KKvsto, l4); (KEref, l5)] -> Forall (fun o => kind_of o = k) l).
    { intros k l Hin. rewrite Forall_forall in Hk. specialize (Hk _ Hin). eapply Forall_impl; [|exact Hk]. cbn. tauto. }
    assert (K1 := K _ _ (or_introl eq_refl)). assert (K2 := K _ _ (or_intror (or_introl eq_refl))). assert (K3 := K _ _ (or_intror (or_intror (or_introl eq_refl)))).
    assert (K4 := K _ _ (or_intror (or_intror (or_intror (or_introl eq_refl))))). assert (K5 := K _ _ (or_intror (or_intror (or_intror (or_intror (or_introl eq_refl)))))).
    cbn [flat_map snd] in *. rewrite app_nil_r in *.
    rewrite !count_app, (count_kind KToggl _ _ K1), (count_kind KToggl _ _ K2), (count_kind KToggl _ _ K3), (count_kind KToggl _ _ K4), (count_kind KToggl _ _ K5) in C1.
    rewrite !count_app, (count_kind KTrang _ _ K1), (count_kind KTrang _ _ K2), (count_kind KTrang _ _ K3), (count_kind KTrang _ _ K4), (count_kind KTrang _ _ K5) in C2.
    rewrite !count_app, (count_kind KClone _ _ K1), (count_kind KClone _ _ K2), (count_kind KClone _ _ K3), (count_kind KClone _ _ K4), (count_kind KClone _ _ K5) in C3.
    rewrite !count_app, (count_kind KKvsto _ _ K1), (count_kind KKvsto _ _ K2), (count_kind KKvsto _ _ K3), (count_kind KKvsto _ _ K4), (count_kind KKvsto _ _ K5) in C4.
    rewrite !count_app, (count_kind KEref _ _ K1), (count_kind KEref _ _ K2), (count_kind KEref _ _ K3), (count_kind KEref _ _ K4), (count_kind KEref _ _ K5) in C5.
    cbn [kind_eqb kind_val N.eqb Pos.eqb] in C1, C2, C3, C4, C5.
    unfold chunks_oct in Hlen. cbn [flat_map] in Hlen. rewrite app_nil_r, !app_length, !ops_oct_app, !app_length in Hlen.
    assert (L : forall k (l : list op1), length (chunk_oct ws (k, l)) = ((if length l =? 0 then 0 else 2) + length (ops_oct ws l))%nat).
    { intros k [|o l]; reflexivity. }
    rewrite !L in Hlen. apply Hm. clear -Hlen C1 C2 C3 C4 C5 C6.
    assert (forall n c : nat, (n <= 256 * c)%nat -> ((if n =? 0 then 0 else 2) <= 2 * c)%nat) as Q by (intros n c; destruct (Nat.eqb_spec n 0); lia).
    assert (Q1 := Q (length l1) (chunk_count KToggl cs) ltac:(lia)). assert (Q2 := Q (length l2) (chunk_count KTrang cs) ltac:(lia)). assert (Q3 := Q (length l3) (chunk_count KClone cs) ltac:(lia)).
    assert (Q4 := Q (length l4) (chunk_count KKvsto cs) ltac:(lia)). assert (Q5 := Q (length l5) (chunk_count KEref cs) ltac:(lia)).
    assert (U : forall n : nat, ((if n =? 0 then 0 else 2) <= 2)%nat) by (intros n; destruct (n =? 0)%nat; lia).
    pose proof (U (length l1)). pose proof (U (length l2)). pose proof (U (length l3)). pose proof (U (length l4)). pose proof (U (length l5)).
    repeat apply Forall_cons; try apply Forall_nil; cbn [snd]; lia.
  Qed.
End Frames.
