(** * Properties C18, C21, C22: delta2's wire format. *)
From Coq Require Import List NArith ZArith Bool Arith Lia ZifyN ZifyNat.
From Verif Require Import PyBase NBits Bits BB_Model BB_Spec BB_Proofs Prop_BB BB_Read D2Huff_Model D2Huff_Proofs D2Huff_Dict Prop_D2Huff
  D2Wire_Model D2Wire_Proofs D2Wire_Frame.
Import ListNotations.
Open Scope N_scope.
Open Scope py_scope.

(** ** C18: variable-length integers *)

(** A number packed into a bucket that is read up to its end (at whatever
    alignment that is) can be unpacked whatever is written after it, and the
    reader then stands at the bit after the number. *)
Theorem C18_varint_roundtrip : forall ops a b, Forall mop_ok ops -> bb_run bb_new ops = Ok (a, b) -> at_end b ->
  forall v : N, exists b1, pack_varint b (Z.of_N v) = Ok b1 /\
  forall later, Forall mop_ok later -> Forall m_is_write later ->
  exists a2 b2 b3, bb_run b1 later = Ok (a2, b2) /\ unpack_varint b2 = Ok (v, b3) /\ read_pos b3 = bb_num b1.
Proof.
  intros ops a b HF Hrun Hend v. destruct (at_end_rd ops a b HF Hrun Hend) as (A & HA).
  destruct (pack_varint_ok v b A [] HA) as (b1 & E1 & B1). exists b1. split; [exact E1|]. intros later HF2 Hw.
  destruct (writes_rd later HF2 Hw b1 A _ B1) as (a2 & b2 & X & E2 & B2). cbn [app] in B2.
  destruct (unpack_varint_ok v b2 A X B2) as (b3 & E3 & B3). exists a2, b2, b3. split; [exact E2|]. split; [exact E3|].
  unfold read_pos. rewrite (rd_pos _ _ _ B3), (rd_num _ _ _ B1). cbn [app]. now rewrite app_length.
Qed.
Print Assumptions C18_varint_roundtrip.

(** Packing refuses negative numbers. *)
Theorem C18_negative : forall b v, (v < 0)%Z -> pack_varint b v = Err AssertionError.
Proof. intros b v H. unfold pack_varint. destruct (Z.ltb_spec v 0); [reflexivity|lia]. Qed.
Print Assumptions C18_negative.

(** Numbers up to fourteen take one nibble; 2^40 starts at bit 3 and takes a
    nibble of fifteen and fourteen groups. *)
Example C18_nontrivial :
  map (fun v => (let* (_, b) := bb_run bb_new [MStore [160] 3; MGet 3] in
   let* b1 := pack_varint b (Z.of_N v) in
   let* (_, b2) := bb_run b1 [MStore [255; 255] 13] in
   let* (x, b3) := unpack_varint b2 in
   Ok (x, bb_num b1, read_pos b3, bb_num b3)))
  [14; 15; 22; 23; 2 ^ 40] =
  [Ok (14, 7%nat, 7%nat, 20%nat); Ok (15, 11%nat, 11%nat, 24%nat); Ok (22, 11%nat, 11%nat, 24%nat); Ok (23, 15%nat, 15%nat, 28%nat);
   Ok (2 ^ 40, 63%nat, 63%nat, 76%nat)].
Proof. vm_compute. reflexivity. Qed.

(** ** C21: instruction streams *)

(** What an index field can hold. *)
Definition index_fits (w : iwidth) (i : Z) : Prop :=
  (0 <= i /\ match w with Int8 => i < 2 ^ 8 | Int16 => i < 2 ^ 16 | VarInt => True end)%Z.
(** Every instruction is listed under its own opcode. *)
Definition valid_instr (w : iwidth) (c : opcode) (o : op) : Prop :=
  match o with
  | OToggl e i => c = (Toggl, e) /\ index_fits w i
  | OTrang e i s => c = (Trang, e) /\ index_fits w i /\ index_fits w s
  | OClone e i v => c = (Clone, e) /\ index_fits w i /\ is_bytes v
  | OKvsto e k v => c = (Kvsto, e) /\ is_bytes k /\ is_bytes v
  end.
Definition valid (w : iwidth) (is : instructions) : Prop := forall c ops, In (c, ops) is -> forall o, In o ops -> valid_instr w c o.

Lemma valid_kind w is : valid w is -> Forall (kind_ok w) is.
Proof.
  intros H. apply Forall_forall. intros [c ops] Hin. unfold kind_ok. cbn [fst snd]. apply Forall_forall. intros o Ho.
  specialize (H c ops Hin o Ho). assert (I : forall i, index_fits w i -> index_ok w i) by (intros i [H1 H2]; destruct w; cbn; lia).
  destruct o; cbn [valid_instr code_of op_ok] in *; intuition.
Qed.

(** A Huffman coder for octets and the end marker. *)
Definition coder (h : huffman) : Prop :=
  exists order table, iterates order /\ new_huffman order table = Ok h /\ forall c, c <= 256 -> In c (map fst table).
Lemma coder_good h : coder h -> exists ws, good h ws /\ 256 < lenN ws.
Proof.
  intros (order & table & Ho & E & Hc). destruct (iterates_good order table h Ho E) as (ws & G & _ & Hlt). exists ws. split; [exact G|]. apply Hlt, Hc. lia.
Qed.
Lemma shipped_coder t : t = d2_request_table \/ t = d2_response_table -> exists h, new_huffman int_dict_order t = Ok h /\ coder h.
Proof.
  intros Ht. destruct (C19_shipped_tables t Ht) as (h & E & _). exists h. split; [exact E|].
  exists int_dict_order, t. split; [apply cpython_iterates|]. split; [exact E|now apply shipped_symbols].
Qed.

Theorem C21_serialised : forall h w is gid, coder h -> valid w is -> gid < 256 ->
  exists blob, to_wire w h is gid = Ok blob /\ is_bytes blob /\
  (N.of_nat (length blob) <= 65536 -> from_wire w h blob = Ok (gid, flat_map snd is)).
Proof.
  intros h w is gid Hh Hv Hg. destruct (coder_good h Hh) as (ws & G & He). pose proof (valid_kind w is Hv) as Hk.
  destruct (to_wire_ok h ws G He w is gid Hk Hg) as (x & Hx & E & _). eexists. split; [exact E|]. split.
  - unfold is_bytes. rewrite !Forall_app. split; [|split; [apply payload_bytes|exact Hx]]. apply hdr_bytes; try reflexivity; try exact Hg. lia.
  - intros Hl. now apply (roundtrip_ok h ws G He w is gid _ Hk Hg E).
Qed.
Print Assumptions C21_serialised.

(** Kind by kind: the instructions of one opcode arrive as they were listed. *)
Definition opcode_of (o : op) : opcode :=
  match o with OToggl e _ => (Toggl, e) | OTrang e _ _ => (Trang, e) | OClone e _ _ => (Clone, e) | OKvsto e _ _ => (Kvsto, e) end.
Definition opkind_eqb (a b : opkind) : bool :=
  match a, b with Toggl, Toggl | Trang, Trang | Clone, Clone | Kvsto, Kvsto => true | _, _ => false end.
Definition opcode_eqb (a b : opcode) : bool := opkind_eqb (fst a) (fst b) && Bool.eqb (snd a) (snd b).

Lemma opcode_eqb_eq a b : opcode_eqb a b = true <-> a = b.
Proof. destruct a as [[] []], b as [[] []]; cbn; split; intros; congruence. Qed.

Theorem C21_per_kind : forall h w is gid blob gid' ops, coder h -> valid w is -> gid < 256 -> NoDup (map fst is) ->
  to_wire w h is gid = Ok blob -> N.of_nat (length blob) <= 65536 -> from_wire w h blob = Ok (gid', ops) ->
  gid' = gid /\ forall c l, In (c, l) is -> filter (fun o => opcode_eqb (opcode_of o) c) ops = l.
Proof.
  intros h w is gid blob gid' ops Hh Hv Hg Hn E Hl Ed.
  destruct (C21_serialised h w is gid Hh Hv Hg) as (blob' & E' & _ & Hd). assert (blob' = blob) by congruence. subst blob'.
  rewrite (Hd Hl) in Ed. injection Ed as <- <-. split; [reflexivity|]. clear -Hv Hn. intros c l Hin.
  assert (P : forall a b, filter (fun o => opcode_eqb (opcode_of o) c) (a ++ b) =
    filter (fun o => opcode_eqb (opcode_of o) c) a ++ filter (fun o => opcode_eqb (opcode_of o) c) b).
  { induction a as [|o a IH]; intros b; cbn [app filter]; [reflexivity|]. destruct (opcode_eqb _ _); cbn [app]; now rewrite IH. }
  assert (V : forall c0 l0, In (c0, l0) is -> filter (fun o => opcode_eqb (opcode_of o) c) l0 = if opcode_eqb c0 c then l0 else []).
  { intros c0 l0 H0. pose proof (Hv c0 l0 H0) as Hvl. clear -Hvl. induction l0 as [|o l0 IH]; cbn [filter]; [now destruct (opcode_eqb _ _)|].
    assert (Ho : opcode_of o = c0) by (specialize (Hvl o (or_introl eq_refl)); destruct o; cbn in *; intuition congruence).
    rewrite Ho. rewrite IH by (intros; apply Hvl; now right). destruct (opcode_eqb c0 c); reflexivity. }
  clear Hv. induction is as [|[c0 l0] r IH]; [contradiction|]. cbn [flat_map snd]. rewrite P. inversion Hn as [|? ? Hni Hn']; subst.
  rewrite (V c0 l0) by (now left). destruct Hin as [Hin|Hin].
  - injection Hin as -> ->. assert (Ec : opcode_eqb c c = true) by (now apply opcode_eqb_eq). rewrite Ec.
    enough (Z : filter (fun o => opcode_eqb (opcode_of o) c) (flat_map snd r) = []) by (rewrite Z; apply app_nil_r).
    clear IH Hn Hn'. induction r as [|[c1 l1] r IH]; [reflexivity|]. cbn [flat_map snd]. rewrite P, (V c1 l1) by (right; now left).
    destruct (opcode_eqb c1 c) eqn:E1; [apply opcode_eqb_eq in E1; subst; exfalso; apply Hni; now left|]. cbn [app]. apply IH.
    + intros c2 l2 H2. apply V. destruct H2 as [H2|H2]; [now left|right; now right].
    + intros C. apply Hni. now right.
  - assert (Ec : opcode_eqb c0 c = false).
    { destruct (opcode_eqb c0 c) eqn:E1; [|reflexivity]. apply opcode_eqb_eq in E1. subst. exfalso. apply Hni. apply in_map_iff. now exists (c, l). }
    rewrite Ec. cbn [app]. apply IH; [exact Hn'|exact Hin|]. intros c2 l2 H2. apply V. now right.
Qed.
Print Assumptions C21_per_kind.

(** Thirty-three toggles (three chunks), ranges, clones and stores of every
    kind, with a coder of 257 equally frequent symbols and
    variable-length indices. *)
Definition some_instructions : instructions :=
  [((Toggl, true), map (fun i => OToggl true (Z.of_nat i * 7)) (seq 0 33)); ((Clone, false), [OClone false 64 [47; 97]]); ((Toggl, false), []);
   ((Trang, true), [OTrang true 20 3; OTrang true 190 27]); ((Kvsto, true), [OKvsto true [] [255; 0; 128]]); ((Trang, false), [OTrang false 254 1]);
   ((Kvsto, false), [OKvsto false [97] []; OKvsto false [98; 99] [100]]); ((Clone, true), [OClone true 0 []])].
Example C21_nontrivial : valid VarInt some_instructions /\ NoDup (map fst some_instructions) /\
  match new_huffman int_dict_order (with_symbols small_counts) with
  | Ok h => match to_wire VarInt h some_instructions 200 with
            | Ok blob => length blob = 103%nat /\ from_wire VarInt h blob = Ok (200, flat_map snd some_instructions)
            | Err _ => False
            end
  | Err _ => False
  end.
Proof.
  split; [|split].
  - intros c ops H o Ho. unfold some_instructions in H. cbn [In] in H.
    repeat (destruct H as [H|H]; [injection H as <- <-; cbn [In map seq] in Ho;
      repeat (destruct Ho as [<-|Ho]; [cbn; unfold index_fits; repeat split; repeat constructor; lia|]); contradiction|]). contradiction.
  - cbn. repeat constructor; cbn; intuition congruence.
  - vm_compute. split; reflexivity.
Qed.

(** ** C22: payloads larger than one frame *)

(** What arrives is always a beginning of what was sent. *)
Theorem C22_prefix : forall h w is gid blob, coder h -> valid w is -> gid < 256 -> to_wire w h is gid = Ok blob ->
  exists got lost, flat_map snd is = got ++ lost /\ from_wire w h blob = Ok (gid, got).
Proof.
  intros h w is gid blob Hh Hv Hg E. destruct (coder_good h Hh) as (ws & G & He). pose proof (valid_kind w is Hv) as Hk.
  pose proof (from_wire_ok h ws G He w is gid blob Hk Hg E) as Ed.
  destruct (output_all_ok h ws G He w is Hk bb_new [] [] wr_new) as (_ & _ & _ & _ & C).
  match type of Ed with _ = Ok (_, flat_map snd (kept _ _ ?n ?F _)) => destruct (kept_prefix ws w (cut is) n F) as (rest & Er) end.
  eexists. exists (flat_map snd rest). split; [|exact Ed]. rewrite <- C. rewrite Er at 1. apply flat_map_app.
Qed.
Print Assumptions C22_prefix.

(** A long value and a toggle: the toggle is lost, whatever the coder. *)
Definition long_value : str := repeat 97 (N.to_nat 524288).
Definition long_instructions : instructions := [((Kvsto, false), [OKvsto false [97] long_value]); ((Toggl, false), [OToggl false 0])].

Theorem C22_fragmentation_refuted : forall h w, coder h ->
  exists is, valid w is /\ exists blob, to_wire w h is 1 = Ok blob /\ exists got, from_wire w h blob = Ok (1, got) /\ got <> flat_map snd is.
Proof.
  intros h w Hh. exists long_instructions.
  assert (Hlong : is_bytes long_value) by (unfold long_value; generalize (N.to_nat 524288); intros n; induction n; constructor; [reflexivity|assumption]).
  assert (Hv : valid w long_instructions).
  { intros c ops H o Ho. unfold long_instructions in H. cbn [In] in H.
    destruct H as [H|[H|H]]; [injection H as <- <-; cbn [In] in Ho..|contradiction]; (destruct Ho as [<-|Ho]; [|contradiction]); cbn [valid_instr].
    - split; [reflexivity|]. split; [repeat constructor|exact Hlong].
    - split; [reflexivity|]. unfold index_fits. destruct w; lia. }
  split; [exact Hv|]. destruct (C21_serialised h w long_instructions 1 Hh Hv ltac:(lia)) as (blob & E & _). exists blob. split; [exact E|].
  destruct (coder_good h Hh) as (ws & G & He). pose proof (valid_kind w _ Hv) as Hk.
  rewrite (from_wire_ok h ws G He w _ 1 blob Hk ltac:(lia) E). eexists. split; [reflexivity|].
  assert (Ec : cut long_instructions = long_instructions) by reflexivity. rewrite Ec.
  unfold long_instructions. remember long_value as lv eqn:Elv. cbn [kept flat_map snd fst].
  assert (Hlen : (524288 <= Z.of_nat (length (chunk_bits ws w 72 (Kvsto, false, [OKvsto false [97%N] lv]))))%Z).
  { unfold chunk_bits. cbn [snd ops_bits op_bits]. rewrite !app_length.
    pose proof (sbits_text h ws G He (72 + 8 + length (sbits ws (72 + 8) [97%N])) lv Hlong) as T.
    assert (T2 : length lv = N.to_nat 524288) by (rewrite Elv; apply repeat_length). lia. }
  intros C. match type of C with context[(8 <? 8 * ?x)%Z] => set (F := (8 * x)%Z) in C; assert (HF : (F <= 524216)%Z) by (unfold F; lia); clearbody F end.
  destruct (Z.ltb_spec 8 F); cbn [flat_map snd app] in C; [|discriminate].
  match type of C with context[(8 <? F - ?x)%Z] => destruct (Z.ltb_spec 8 (F - x)) end; [lia|discriminate].
Qed.
Print Assumptions C22_fragmentation_refuted.

(** It is not an artefact of a coder that cannot be built. *)
Example C22_nontrivial : coder (match new_huffman int_dict_order d2_request_table with Ok h => h | Err _ => mk_huffman [] DNone end).
Proof.
  destruct (shipped_coder d2_request_table (or_introl eq_refl)) as (h & E & Hh). rewrite E. exact Hh.
Qed.
