(** * Property C127: delta2_bohe's messages, read back by its own codec from the octets. *)
From Coq Require Import String List NArith ZArith Bool Arith Lia ZifyN ZifyNat Permutation Sorted.
From Verif Require Import PyBase PyStr NBits Bits BB_Model BB_Spec BB_Proofs BB_Read D2Huff_Model D2Huff_Proofs D2Wire_Proofs D2Wire_Frame Prop_D2HuffOpt
  D1Huff_Model D1Huff_Proofs Prop_D1Huff D1Wire_Model D1Wire_Proofs D1Wire_Frame Prop_D1Wire Prop_D1Bits Small_Model LB_Model Lib_Model Lib_Spec Lib_Proofs Bohe_Model Host_Model Prop_HostGroups
  DB_Model DB_Proofs DB_Ops DB_Wire DB_Text Prop_DB Prop_DBBits DC_Model DC_Proofs Prop_DC DCW_Model Prop_DCTable Prop_DCBits Prop_DCSites DCR_Model DCE_Model PyStr.
Import ListNotations.
Open Scope N_scope.
Open Scope py_scope.

(** ** Specification *)

(** The operations of instructions: indices toggled one by one or as ranges, each as often
    as asked for, the clones, the stores. *)
Definition ops_of (toggled : list Z) (clones : list (Z * str)) (stores : list (str * str)) (ops : list op) : Prop := exists singles ranges,
  Permutation (singles ++ flat_map (fun '(s, e) => between s e) ranges) toggled /\
  ops = map OToggl singles ++ map (fun '(s, e) => OTrang s e) ranges ++ map (fun '(n, v) => OClone n v) clones ++ map (fun '(k, v) => OKvsto k v) stores.

(** ** Proofs: writing *)

Lemma frames_same gid : forall fuel b p l a, put_frames2 gid fuel b p l a = frames1 fuel b p l a 1234 gid.
Proof.
  induction fuel as [|f IH]; intros b p l a; [reflexivity|]. cbn [put_frames2 frames1]. cbv zeta. unfold frame_head2, boilerplate1.
  destruct (bb_store16 b (N.min l a)) as [b1|]; [|reflexivity]. cbn [bind]. destruct (bb_store8 b1 _) as [b2|]; [|reflexivity]. cbn [bind].
  destruct (bb_store32 b2 _) as [b3|]; [|reflexivity]. cbn [bind]. destruct (bb_store8 b3 8) as [b4|]; [|reflexivity]. cbn [bind].
  destruct (bb_store8 b4 gid) as [b5|]; [|reflexivity]. cbn [bind]. destruct (bb_store b5 p _) as [b6|]; [|reflexivity]. cbn [bind]. destruct (l <=? a); [reflexivity|apply IH].
Qed.

Lemma text_ok i : instrs_ok i -> instr_ok (as_instr i).
Proof.
  intros [H1 H2 H3]. unfold as_instr. constructor; cbn [i_toggl i_clone i_kvsto i_eref]; [exact H1| | |constructor]; apply Forall_map; assumption.
Qed.

Section Written.
  Context (h : huffman) (ws : list (list bool)) (G : good h ws) (He : 256 < lenN ws).

  Lemma text_wire i gid : instrs_ok i -> texts i -> real_ops2 h i gid = to_wire1 h (as_instr i) gid.
  Proof.
    intros Hi Ht. unfold real_ops2, serialize2, to_wire1, serialize1. rewrite put_instrs_kinds.
    destruct (put_kinds_ok h ws G He (kinds i) (kinds_ok i Hi) bb_new [] [] wr_new) as (pb & E0 & B0 & Hp). rewrite E0. fold (payload ws i) in *.
    destruct (output_kinds_ok h ws G He (wire_kinds (as_instr i)) (wire_kinds_ok _ (text_ok i Hi)) bb_new [] [] wr_new) as (qb & E1 & B1 & Hq). rewrite E1. cbn [bind].
    assert (Ep : payload ws i = chunks_oct ws (wire_kinds (as_instr i))) by (exact (payload_text ws i Ht)). rewrite <- Ep in B1.
    assert (Ea : bb_all pb = bb_all qb).
    { unfold bb_all. destruct (rd_out _ _ _ B0) as [-> _]. destruct (rd_out _ _ _ B1) as [-> _]. rewrite (rd_num _ _ _ B0), (rd_num _ _ _ B1). reflexivity. }
    rewrite Ea. destruct (bb_all qb) as [p n]. unfold frame_head2, boilerplate1. destruct (bb_store16 bb_new 0) as [b1|]; [|reflexivity]. cbn [bind].
    destruct (bb_store8 b1 0) as [b2|]; [|reflexivity]. cbn [bind]. destruct (bb_store32 b2 _) as [b3|]; [|reflexivity]. cbn [bind]. destruct (bb_store8 b3 0) as [b4|]; [|reflexivity]. cbn [bind].
    destruct (bb_store8 b4 gid) as [b5|]; [|reflexivity]. cbn [bind]. rewrite frames_same. reflexivity.
  Qed.

  Lemma read_sent i j gid blob : instrs_ok i -> texts i -> few i -> gid < 256 -> real_ops2 h i gid = Ok blob -> lenN blob <= 65536 ->
    j = DC_Model.mk_instrs (DB_Model.n_toggl i) (map fst (DB_Model.n_clone i)) (map fst (DB_Model.n_kvsto i)) -> real_to_ops h blob = Ok (gid, sent j).
  Proof.
    intros Hi Ht (F1 & F2 & F3) Hg E L ->. rewrite (text_wire i gid Hi Ht) in E. unfold real_to_ops.
    assert (Hm : at_most_256 (as_instr i)).
    { destruct (few_toggles _ F1) as [Ha Hb]. unfold at_most_256, wire_kinds, as_instr. cbn [i_toggl i_clone i_kvsto i_eref]. destruct (toggle_ranges (DB_Model.n_toggl i)) as [ot otr]. cbn [fst snd] in *.
      repeat apply Forall_cons; try apply Forall_nil; cbn [snd]; rewrite ?map_length; try assumption. cbn. lia. }
    rewrite (roundtrip1_ok h ws G He (as_instr i) gid blob (text_ok i Hi) Hg Hm E L). cbn [bind]. do 2 f_equal.
    unfold wire_kinds, as_instr, sent. cbn [i_toggl i_clone i_kvsto i_eref DC_Model.n_toggl DC_Model.n_clone DC_Model.n_kvsto].
    destruct (toggle_ranges (DB_Model.n_toggl i)) as [ot otr]. cbn [flat_map snd map]. rewrite !app_nil_r, !flat_map_app.
    assert (R : forall A (f : A -> op1) (g : A -> op) l, (forall x, op_read (f x) = [g x]) -> flat_map op_read (map f l) = map g l).
    { intros A f g l H. induction l as [|a l IH]; [reflexivity|]. cbn [map flat_map]. now rewrite H, IH. }
    f_equal; [now apply R|]. f_equal; [apply R; now intros [s e]|]. f_equal; (apply R; now intros [k v]).
  Qed.
End Written.

(** ** C127: a message *)

(** A message without binary values, of at most 256 operations of a kind and one frame. *)
Theorem C127_read : forall is_request h i gid blob, db_coder is_request = Ok h -> instrs_ok i -> gid < 256 ->
  (forall n v b, In (n, v, b) (DB_Model.n_clone i) -> b = true) -> (forall k v b, In (k, v, b) (DB_Model.n_kvsto i) -> b = true) ->
  (length (DB_Model.n_toggl i) <= 256)%nat -> (length (DB_Model.n_clone i) <= 256)%nat -> (length (DB_Model.n_kvsto i) <= 256)%nat ->
  real_ops2 h i gid = Ok blob -> lenN blob <= 65536 ->
  exists ops, real_to_ops h blob = Ok (gid, ops) /\ ops_of (DB_Model.n_toggl i) (map fst (DB_Model.n_clone i)) (map fst (DB_Model.n_kvsto i)) ops.
Proof.
  intros is_request h i gid blob Eh Hi Hg T1 T2 F1 F2 F3 E L. destruct (coder_words is_request h Eh) as (ws & G & He).
  assert (Ht : texts i). { split; apply Forall_forall; intros [[n v] b] Hx; cbn [snd]; eauto. }
  eexists. split; [exact (read_sent h ws G He i _ gid blob Hi Ht (conj F1 (conj F2 F3)) Hg E L eq_refl)|].
  unfold sent. cbn [DC_Model.n_toggl DC_Model.n_clone DC_Model.n_kvsto]. destruct (toggle_ranges (DB_Model.n_toggl i)) as [ot otr] eqn:Et. exists ot, otr. split; [|reflexivity].
  exact (C42_ranges _ _ _ Et).
Qed.
Print Assumptions C127_read.

(** ** Proofs: sizes *)

Definition short_codes (r : res huffman) : bool := match r with Ok h => forallb (fun c => Nat.leb (snd c) 32) (h_codes h) | Err _ => false end.
Lemma shipped_short is_request : short_codes (db_coder is_request) = true.
Proof. destruct is_request; vm_compute; reflexivity. Qed.
Lemma words_short is_request h ws : db_coder is_request = Ok h -> good h ws -> forall c, (length (word_of ws c) <= 32)%nat.
Proof.
  intros E G c. pose proof (shipped_short is_request) as S. rewrite E in S. cbn [short_codes] in S. rewrite (g_codes _ _ G), forallb_forall in S.
  unfold word_of. destruct (nth_in_or_default (N.to_nat c) ws []) as [H| ->]; [|cbn; lia].
  specialize (S (enc (nth (N.to_nat c) ws [])) (in_map enc _ _ H)). cbn [enc snd] in S. now apply Nat.leb_le in S.
Qed.

Section Sizes.
  Context (ws : list (list bool)) (Hw : forall c, (length (word_of ws c) <= 32)%nat).

  Lemma soct_short s : (length (soct ws s) <= 4 * length s + 4)%nat.
  Proof.
    assert (B : (length (bits_for ws s) <= 32 * length s)%nat).
    { unfold bits_for. induction s as [|c s IH]; [cbn; lia|]. cbn [flat_map length]. rewrite app_length. specialize (Hw c). lia. }
    pose proof (f_equal (@length bool) (soct_bits ws s)) as E. rewrite bits_of_bytes_length in E. unfold sbits in E. rewrite Nat.add_0_l, app_length, repeat_length in E.
    unfold raw_bits in E. rewrite app_length in E. specialize (Hw 256).
    assert (P : (pad_len (length (bits_for ws s) + length (word_of ws 256)) < 8)%nat) by (unfold pad_len; apply Nat.mod_upper_bound; lia). lia.
  Qed.
  Lemma flat_short {A} (f : A -> list N) (w : A -> nat) l : (forall x, In x l -> (length (f x) <= w x)%nat) -> (length (flat_map f l) <= list_sum (map w l))%nat.
  Proof.
    induction l as [|x l IH]; intros H; [cbn; lia|]. cbn [flat_map map list_sum fold_right]. rewrite app_length. specialize (H x (or_introl eq_refl)) as Hx.
    specialize (IH (fun y Hy => H y (or_intror Hy))). unfold list_sum in IH. lia.
  Qed.
  Lemma kind_short k l : (length (kind_oct ws (k, l)) <= 2 + length (flat_map (wop_oct ws) l))%nat.
  Proof. unfold kind_oct. cbn [fst snd]. destruct l; [cbn; lia|]. cbn [app length]. lia. Qed.
  Lemma sum_const {A} (f : A -> nat) n l : (forall x, f x = n) -> list_sum (map f l) = (n * length l)%nat.
  Proof. intros H. induction l as [|x l IH]; [cbn; lia|]. cbn [map list_sum fold_right length]. unfold list_sum in IH. rewrite IH, H. lia. Qed.

  Lemma payload_short i : texts i -> few i ->
    (Z.of_nat (length (payload ws i)) <= 8 + 1536 + 6 * Z.of_nat (length (DB_Model.n_clone i)) + 8 * Z.of_nat (length (DB_Model.n_kvsto i)) +
      4 * fold_right (fun c n => slen (snd (fst c)) + n) 0 (DB_Model.n_clone i) + 4 * bytes_of (map fst (DB_Model.n_kvsto i)))%Z.
  Proof.
    intros [T1 T2] (F1 & F2 & F3). destruct (few_toggles _ F1) as [Ha Hb]. unfold payload, kinds. destruct (toggle_ranges (DB_Model.n_toggl i)) as [ot otr]. cbn [fst snd] in *.
    cbn [flat_map]. rewrite !app_length. cbn [length].
    pose proof (kind_short KToggl (map WToggl ot)) as K1. pose proof (kind_short KTrang (map (fun '(s, e) => WTrang e s) otr)) as K2.
    pose proof (kind_short KClone (map (fun '(n, v, f) => WClone n v f) (DB_Model.n_clone i))) as K3. pose proof (kind_short KKvsto (map (fun '(k, v, f) => WKvsto k v f) (DB_Model.n_kvsto i))) as K4.
    rewrite !flat_map_concat_map, !map_map, <- !flat_map_concat_map in K1, K2, K3, K4.
    assert (L1 : (length (flat_map (fun x => wop_oct ws (WToggl x)) ot) <= 2 * length ot)%nat).
    { rewrite <- (sum_const (fun _ : Z => 2%nat) 2 ot) by reflexivity. apply flat_short. intros x _. cbn. lia. }
    assert (L2 : (length (flat_map (fun x => wop_oct ws (let '(s, e) := x in WTrang e s)) otr) <= 4 * length otr)%nat).
    { rewrite <- (sum_const (fun _ : Z * Z => 4%nat) 4 otr) by reflexivity. apply flat_short. intros [s e] _. cbn. lia. }
    assert (L3 : (Z.of_nat (length (flat_map (fun x => wop_oct ws (let '(n, v, f) := x in WClone n v f)) (DB_Model.n_clone i))) <=
      6 * Z.of_nat (length (DB_Model.n_clone i)) + 4 * fold_right (fun c n => slen (snd (fst c)) + n) 0 (DB_Model.n_clone i))%Z).
    { clear - T1 Hw. induction T1 as [|[[n v] f] r Hf T IH]; [cbn; lia|]. cbn [snd] in Hf. subst f. cbn [flat_map fold_right fst snd length wop_oct str_oct]. rewrite !app_length.
      pose proof (soct_short v). change (length (idx_oct n)) with 2%nat. unfold slen in *. lia. }
    assert (L4 : (Z.of_nat (length (flat_map (fun x => wop_oct ws (let '(k, v, f) := x in WKvsto k v f)) (DB_Model.n_kvsto i))) <=
      8 * Z.of_nat (length (DB_Model.n_kvsto i)) + 4 * bytes_of (map fst (DB_Model.n_kvsto i)))%Z).
    { clear - T2 Hw. induction T2 as [|[[k v] f] r Hf T IH]; [cbn; lia|]. cbn [snd] in Hf. subst f. cbn [flat_map map fst bytes_of length wop_oct str_oct]. rewrite !app_length.
      pose proof (soct_short v). pose proof (soct_short k). unfold slen in *. lia. }
    lia.
  Qed.
End Sizes.

(** ** Proofs: a conversation *)

Lemma flags_exist has_encoder ord enc gid : forall pairs c i c' i', process_all ord enc gid c i pairs = Ok (c', i') ->
  exists fs, clone_flags has_encoder ord enc gid c i pairs = Ok fs.
Proof.
  induction pairs as [|[k v] r IH]; intros c i c' i' E; cbn [process_all clone_flags] in *; [now exists []|].
  destruct (enc k v) as [w|]; [|discriminate]. cbn [bind] in *. destruct (process_kv ord gid c i k w) as [[c1 i1]|]; [|discriminate]. cbn [bind] in *.
  destruct (IH _ _ _ _ E) as (fs & ->). cbn [bind]. eexists. reflexivity.
Qed.
Lemma flags_true has_encoder ord enc gid : forall pairs, (forall k v, In (k, v) pairs -> has_encoder k = false) -> forall c i fs,
  clone_flags has_encoder ord enc gid c i pairs = Ok fs -> Forall (eq true) fs.
Proof.
  induction pairs as [|[k v] r IH]; intros H c i fs E; cbn [clone_flags] in E; [assert (fs = []) as -> by congruence; constructor|].
  destruct (enc k v) as [w|]; [|discriminate]. cbn [bind] in *. destruct (process_kv ord gid c i k w) as [[c1 i1]|]; [|discriminate]. cbn [bind] in *.
  destruct (clone_flags has_encoder ord enc gid c1 i1 r) as [fs1|] eqn:E1; [|discriminate]. cbn [bind] in E. specialize (IH (fun k v Hx => H k v (or_intror Hx)) _ _ _ E1).
  rewrite (H k v (or_introl eq_refl)) in E. destruct (_ <? _)%nat; [assert (fs = true :: fs1) as -> by (cbn [negb] in E; congruence); now constructor|]. assert (fs = fs1) as -> by congruence. exact IH.
Qed.
Lemma same_length {A B} (R : A -> B -> Prop) l m : Forall2 R l m -> length l = length m.
Proof. induction 1; cbn [length]; congruence. Qed.
Lemma fst_flags (has_encoder : str -> bool) (l : list (str * str)) : map fst (map (fun '(k, v) => (k, v, negb (has_encoder k))) l) = l.
Proof. induction l as [|[k v] l IH]; [reflexivity|]. cbn [map fst]. now f_equal. Qed.
Lemma combine_true {A} (l : list A) : forall fs, Forall (eq true) fs -> Forall (fun c => snd c = true) (combine l fs).
Proof. induction l as [|x l IH]; intros [|f fs] H; cbn [combine]; try constructor; inversion H; subst; [reflexivity|now apply IH]. Qed.
Lemma cloned_sum l : forall cl pc, Forall2 (cloned l) cl pc -> (fold_right (fun c n => slen (snd c) + n) 0 cl <= bytes_of pc)%Z.
Proof. induction 1 as [|[n v] [k w] cl pc [Hv _] F IH]; [cbn; lia|]. cbn [fold_right fst snd bytes_of] in *. subst w. pose proof (slen_pos k). lia. Qed.
Lemma combine_sum : forall (cl : list (Z * str)) (fs : list bool), length fs = length cl ->
  fold_right (fun c n => slen (snd (fst c)) + n)%Z 0%Z (combine cl fs) = fold_right (fun c n => slen (snd c) + n)%Z 0%Z cl.
Proof. induction cl as [|c cl IH]; intros [|f fs] H; try discriminate; [reflexivity|]. cbn [combine fold_right fst snd]. rewrite IH; [reflexivity|]. now injection H. Qed.

(** Nothing but texts, of octets. *)
Definition textual (has_encoder : str -> bool) (m : N * message) (ps : list (str * str)) : Prop :=
  fst m < 256 /\ (length ps <= 128)%nat /\ (forall k v, In (k, v) (snd m) -> has_encoder k = false) /\ (forall k w, In (k, w) ps -> is_bytes k /\ is_bytes w).
Definition small_groups (c : code) : Prop := forall gid, (length (g_idxs (group_of (k_groups c) gid)) <= 128)%nat.

Lemma step_ok has_encoder ord enc is_request h gid c d l headers qs : db_coder is_request = Ok h -> is_order_z ord -> in_step c d l -> small_groups c ->
  Forall2 (encodes enc) (split_headers headers) qs -> NoDup qs -> room l (qs ++ qs) -> (2 * bytes_of qs <= 16384)%Z -> textual has_encoder (gid, headers) qs ->
  exists c' blob i, make_operations ord enc gid c headers = Ok (c', i) /\ send has_encoder ord enc h gid c headers = Ok (c', blob) /\
    real_to_ops h blob = Ok (gid, sent i) /\ small_groups c'.
Proof.
  intros Eh Ho (Hc & Hd & Hgs) Hsm He Hq Hr Hb (Hg & Hl & Hte & Hby). cbn [fst snd] in *. destruct (Hgs gid) as (S1 & S2 & S3 & S4 & S5).
  destruct (make_operations_ok ord enc gid c l headers qs Ho Hc S1 S4 S5 He Hq Hr) as (c' & i & g & pc & ps & E1 & X). cbn zeta in X.
  destruct X as (H1 & G1 & O1 & D1 & L1 & Gn1 & P1 & P2 & R1 & B1 & B2 & Cl & NT & LT & I1).
  destruct (coder_words is_request h Eh) as (ws & G & Hws).
  (* the flags *)
  pose proof E1 as E1'. unfold make_operations in E1'. destruct (gs_make (k_groups c) gid) as [gs g0] eqn:Eg. apply bind_ok in E1' as ([c1 i1] & Ep & E). apply bind_ok in E as (c2 & E2 & E).
  destruct (gs_make (k_groups c2) gid) as [gs' g1]. apply bind_ok in E as (c3 & E3 & E). apply bind_ok in E as (g3 & E4 & E). apply bind_ok in E as (c4 & E5 & E).
  assert (Ec : n_clone i = n_clone i1) by (assert (i = mk_instrs (n_toggl i1 ++ ord (g_old g1)) (n_clone i1) (n_kvsto i1)) by congruence; now subst).
  assert (Hsp : forall k v, In (k, v) (split_headers headers) -> has_encoder k = false).
  { intros k v H. unfold split_headers in H. apply in_flat_map in H as ([k' v'] & Hin & Hm). apply in_map_iff in Hm as (x & Ex & _). assert (k' = k) by congruence. subst. eauto. }
  destruct (flags_exist has_encoder _ _ _ _ _ _ _ _ Ep) as (fs & Ef). pose proof (flags_true has_encoder _ _ _ _ Hsp _ _ _ Ef) as Tf.
  destruct (clone_flags_are _ _ _ _ _ _ _ _ _ _ Ef Ep) as (qs' & new & _ & En & Ln & _). cbn [n_clone app] in En. rewrite <- Ec in En. rewrite <- En in Ln. clear En qs' new E E2 E3 E4 E5 c2 c3 c4 g3 g1 gs'.
  (* octets *)
  assert (Hs : forall k v, In (k, v) (split_headers headers) -> is_bytes k /\ forall w, enc k v = Ok w -> is_bytes w).
  { clear - He Hby. induction He as [|[k v] [k' w] a b [Ek Ew] F IH]; intros k0 v0 Hin; [contradiction|]. cbn [fst snd] in *. subst k'.
    destruct Hin as [Hin|Hin].
    - assert (k0 = k /\ v0 = v) as [-> ->] by (split; congruence). destruct (Hby k w (or_introl eq_refl)) as [Ha Hb]. split; [exact Ha|]. intros w' Hw'. assert (w' = w) by congruence. now subst.
    - apply IH; [|exact Hin]. intros k1 w1 H1. apply Hby. now right. }
  destruct (make_bytes _ _ _ _ _ _ _ Hs E1) as [Y1 Y2].
  assert (Kv : forall k v, In (k, v) (n_kvsto i) -> has_encoder k = false).
  { assert (Inc : forall k v, In (k, v) (n_kvsto i1) -> In k (map fst (split_headers headers))).
    { assert (Z0 : forall k v, In (k, v) (n_kvsto (mk_instrs [] [] [])) -> In k (map fst (split_headers headers))) by (intros k v []).
      revert Z0 Ep. generalize (mk_instrs [] [] []) as i0. generalize (mk_code (k_lru c) gs) as c0.
      assert (Sub : incl (split_headers headers) (split_headers headers)) by apply incl_refl. revert Sub. generalize (split_headers headers) at 1 4 as pairs.
      induction pairs as [|[k v] r IH]; intros Sub c0 i0 Z0 E; cbn [process_all] in E; [assert (i1 = i0) by congruence; now subst|].
      destruct (enc k v) as [w|]; [|discriminate]. cbn [bind] in E. destruct (process_kv ord gid c0 i0 k w) as [[ca ia]|] eqn:Ea; [|discriminate]. cbn [bind] in E.
      apply (IH (fun x Hx => Sub x (or_intror Hx)) ca ia); [|exact E]. intros k1 v1 H.
      unfold process_kv in Ea. destruct (gs_at (k_groups c0) gid) as [gg|]; [|discriminate]. cbn [bind] in Ea. destruct (has_kv c0 k w (ord (g_idxs gg))) as [[n|]|]; cbn [bind] in Ea; [| |discriminate].
      - assert (ia = i0) by congruence. subst. eauto.
      - destruct (find_idx c0 k w) as [[n|] [m|]].
        + destruct (g_has gg m); [assert (ia = i0) by congruence; subst; eauto|]. assert (ia = mk_instrs (n_toggl i0 ++ [m]) (n_clone i0) (n_kvsto i0)) by congruence. subst. eauto.
        + assert (ia = mk_instrs (n_toggl i0) (n_clone i0 ++ [(n, w)]) (n_kvsto i0)) by congruence. subst. eauto.
        + destruct (g_has gg m); [assert (ia = i0) by congruence; subst; eauto|]. assert (ia = mk_instrs (n_toggl i0 ++ [m]) (n_clone i0) (n_kvsto i0)) by congruence. subst. eauto.
        + assert (ia = mk_instrs (n_toggl i0) (n_clone i0) (n_kvsto i0 ++ [(k, w)])) by congruence. subst. cbn [n_kvsto] in H. apply in_app_iff in H as [H|[H|[]]]; [eauto|].
          assert (k1 = k) by congruence. subst. apply (in_map fst _ (k, v)), Sub. now left. }
    assert (Ek : n_kvsto i = n_kvsto i1).
    { pose proof E1 as E'. unfold make_operations in E'. rewrite Eg, Ep in E'. cbn [bind] in E'. apply bind_ok in E' as (c2 & _ & E). destruct (gs_make (k_groups c2) gid) as [gs' g1].
      apply bind_ok in E as (c3 & _ & E). apply bind_ok in E as (g3 & _ & E). apply bind_ok in E as (c4 & _ & E).
      assert (i = mk_instrs (n_toggl i1 ++ ord (g_old g1)) (n_clone i1) (n_kvsto i1)) by congruence. now subst. }
    intros k v H. rewrite Ek in H. specialize (Inc _ _ H). apply in_map_iff in Inc as ([k' v'] & Hk & Hin). cbn [fst] in Hk. subst k'. eauto. }
  set (j := with_flags has_encoder fs i).
  assert (Tj : texts j).
  { split; unfold j, with_flags; cbn [DB_Model.n_clone DB_Model.n_kvsto]; [now apply combine_true|]. apply Forall_map, Forall_forall. intros [k v] Hx. cbn [snd]. now rewrite (Kv _ _ Hx). }
  assert (Ij : instrs_ok j).
  { assert (Lv : forall n, live l n -> idx_ok n).
    { intros n Hn. unfold live in Hn. unfold idx_ok. unfold room in Hr. pose proof offset_65. unfold max_items in Hr. lia. }
    constructor; unfold j, with_flags; cbn [DB_Model.n_toggl DB_Model.n_clone DB_Model.n_kvsto].
    - apply Forall_forall. auto.
    - assert (Q : Forall (fun c => idx_ok (fst c) /\ is_bytes (snd c)) (n_clone i)).
      { apply Forall_forall. intros [n v] Hx. rewrite Forall_forall in Y1. split; [|exact (Y1 _ Hx)]. apply Lv. cbn [fst]. clear - Cl Hx. induction Cl as [|[n' v'] p cl pc [_ (w & Hp)] F IH]; [contradiction|].
        destruct Hx as [Hx|Hx]; [|auto]. assert (n' = n) by congruence. subst. apply pair_live. eexists. exact Hp. }
      clear - Q. revert fs. induction Q as [|x r Hx Q IH]; intros [|f fs]; cbn [combine]; constructor; [exact Hx|apply IH].
    - apply Forall_map. eapply Forall_impl; [|exact Y2]. now intros [k v]. }
  assert (Lc : length (n_clone i) = length pc) by (eapply same_length; exact Cl). rewrite app_length in B2. rewrite bytes_of_app in B1.
  assert (Lg : length (g_idxs g) = length qs).
  { rewrite <- (Permutation_length P2), <- (same_length _ _ _ P1). apply Permutation_length. symmetry. apply sort_z_perm. }
  assert (Fj : few j).
  { unfold few, j, with_flags. cbn [DB_Model.n_toggl DB_Model.n_clone DB_Model.n_kvsto]. rewrite combine_length, map_length. split; [|lia].
    assert (Inc : incl (n_toggl i) (g_idxs (group_of (k_groups c) gid) ++ g_idxs g)).
    { intros x Hx. apply in_app_iff. destruct (in_dec Z.eq_dec x (g_idxs (group_of (k_groups c) gid))) as [Hi|Hi]; [now left|]. right. apply I1. right. left. now split. }
    pose proof (NoDup_incl_length NT Inc) as Hlen. rewrite app_length in Hlen. specialize (Hsm gid). lia. }
  assert (Lp : lenN (payload ws j) <= 65527).
  { pose proof (payload_short ws (words_short is_request h ws Eh G) j Tj Fj) as Lp. unfold j at 2 3 4 5, with_flags in Lp. cbn [DB_Model.n_clone DB_Model.n_kvsto] in Lp.
    rewrite (combine_sum _ _ Ln), combine_length, fst_flags, map_length in Lp.
    pose proof (cloned_sum _ _ _ Cl). unfold lenN. lia. }
  destruct (real_ops2_is h ws G Hws gid Hg j Ij) as (blob & Eb & Fb & _).
  assert (Lb : lenN blob <= 65536).
  { destruct Fb as [p L|p r L F]; unfold lenN in *; [|lia]. rewrite app_length. cbn [headg length]. lia. }
  exists c', blob, i. split; [exact E1|]. split.
  { unfold send. rewrite Eg, Ef. cbn [bind]. rewrite E1. cbn [bind]. fold j. rewrite Eb. reflexivity. }
  split.
  { apply (read_sent h ws G Hws j i gid blob Ij Tj Fj Hg Eb Lb). unfold j, with_flags. cbn [DB_Model.n_toggl DB_Model.n_clone DB_Model.n_kvsto].
    rewrite map_fst_combine by exact Ln. rewrite fst_flags. now destruct i. }
  intros m. destruct (N.eq_dec m gid) as [->|Hm]; [rewrite (group_of_get _ _ _ G1), Lg; exact Hl|]. rewrite (group_of_eq _ _ _ (O1 m Hm)). apply Hsm.
Qed.

Lemma over_octets_ok has_encoder ord enc is_request h : db_coder is_request = Ok h -> (forall n, is_order_z (ord n)) -> forall msgs pss, Forall2 (plain enc) msgs pss -> Forall2 (textual has_encoder) msgs pss ->
  forall n c d l, in_step c d l -> small_groups c ->
  (bytes_of l + 2 * octets (concat pss) <= max_bytes)%Z -> (Z.of_nat (length l) + 2 * Z.of_nat (length (concat pss)) <= max_items)%Z ->
  exists outs, over_octets has_encoder ord enc h n c d msgs = Ok outs /\ Forall2 (delivered enc) (map snd msgs) outs.
Proof.
  intros Eh Ho. induction 1 as [|[gid m] ps msgs pss (Hn & Hs & Hd) F IH]; intros T n c d l Hstep Hsm Hb Hi; cbn [over_octets concat map snd] in *.
  - exists []. split; [reflexivity|constructor].
  - assert (T0 : textual has_encoder (gid, m) ps /\ Forall2 (textual has_encoder) msgs pss) by (inversion T; subst; now split). destruct T0 as [T0 Tr].
    rewrite octets_bytes, bytes_of_app in Hb. rewrite app_length in Hi.
    destruct (stands_split enc m ps Hs) as (qs & Fq & Pq). pose proof (bytes_of_pos (concat pss)) as Bp. pose proof (bytes_of_pos l) as Bl.
    assert (Nq : NoDup qs) by (eapply Permutation_NoDup; [symmetry; exact Pq|exact Hd]).
    assert (Bq : bytes_of qs = bytes_of ps) by (now apply bytes_of_perm). assert (Lq : length qs = length ps) by (now apply Permutation_length).
    assert (Rq : room l (qs ++ qs)) by (unfold room; rewrite bytes_of_app, app_length; lia).
    assert (Tq : textual has_encoder (gid, m) qs).
    { destruct T0 as (A & B & C & D). split; [exact A|]. split; [now rewrite Lq|]. split; [exact C|]. intros k w Hin. apply D. exact (Permutation_in _ Pq Hin). }
    destruct (message_ok (ord n) enc gid c d l m qs (Ho n) Hstep Fq Nq Rq) as (c' & i & d1 & d' & es & new & cs & E1 & E2 & E3 & P3 & S' & B' & L').
    destruct (step_ok has_encoder (ord n) enc is_request h gid c d l m qs Eh (Ho n) Hstep Hsm Fq Nq Rq ltac:(unfold max_bytes in Hb; lia) Tq) as (c2 & blob & i2 & E4 & E5 & E6 & S2).
    assert (c2 = c' /\ i2 = i) as [-> ->] by (split; congruence).
    rewrite E5. cbn [bind]. unfold receive. rewrite E6. cbn [bind]. rewrite E2. cbn [bind]. rewrite E3. cbn [bind].
    rewrite bytes_of_app, (bytes_of_app qs) in B'. rewrite app_length, (app_length qs) in L'.
    destruct (IH Tr (S n) c' d' _ S' S2) as (outs & E & Fo).
    { rewrite octets_bytes, !bytes_of_app. lia. } { rewrite !app_length. lia. }
    rewrite E. cbn [bind]. eexists. split; [reflexivity|]. constructor; [|exact Fo]. apply delivered_ok with ps; [exact Hn|exact Hs|now rewrite P3].
Qed.

(** ** C127: a conversation *)

(** Any number of messages, of any of the first 255 groups, none with more than 128 pairs or
    with a name that has an encoder: as long as all that is sent, counted twice, fits into the
    table, every message arrives over the octets. *)
Theorem C127_conversations : forall has_encoder ord enc is_request h msgs pss, db_coder is_request = Ok h -> (forall n l, Permutation (ord n l) l) ->
  Forall2 (plain enc) msgs pss -> Forall2 (textual has_encoder) msgs pss ->
  (2 * octets (concat pss) <= 16384)%Z -> (2 * Z.of_nat (length (concat pss)) <= 1024)%Z ->
  exists outs, over_octets has_encoder ord enc h 0 code_new code_new msgs = Ok outs /\ Forall2 (delivered enc) (map snd msgs) outs.
Proof.
  intros has_encoder ord enc is_request h msgs pss Eh Ho F T Hb Hi.
  apply (over_octets_ok has_encoder ord enc is_request h Eh Ho msgs pss F T 0%nat code_new code_new [] in_step_new).
  - intros gid. unfold group_of. cbn. lia.
  - cbn [bytes_of]. unfold max_bytes. lia.
  - cbn [length]. unfold max_items. lia.
Qed.
Print Assumptions C127_conversations.

(** C111's conversation. *)
Definition no_encoder (_ : str) : bool := false.
Definition talk_pairs : list (list (str * str)) :=
  [[(lit ":path", lit "/a"); (lit "cookie", lit "a=1"); (lit "cookie", lit "b=2"); (lit "x-own", lit "7")];
   [(lit ":path", lit "/b"); (lit "x-own", lit "7")]; [(lit "cookie", lit "a=1"); (lit "cookie", lit "c=3"); (lit ":path", lit "/a")]].
Lemma talk_arrives : (let* h := db_coder true in over_octets no_encoder (fun _ l => rev l) as_it_is h 0 code_new code_new some_talk) =
    Ok [[(lit ":path", lit "/a"); (lit "cookie", lit "a=1; b=2"); (lit "x-own", lit "7")];
        [(lit "x-own", lit "7"); (lit ":path", lit "/b")];
        [(lit ":path", lit "/a"); (lit "cookie", lit "a=1; c=3")]].
Proof. vm_compute. reflexivity. Qed.
Example C127_case : exists h, db_coder true = Ok h /\ Forall2 (textual no_encoder) some_talk talk_pairs /\ (2 * octets (concat talk_pairs) <= 16384)%Z /\
  over_octets no_encoder (fun _ l => rev l) as_it_is h 0 code_new code_new some_talk =
    Ok [[(lit ":path", lit "/a"); (lit "cookie", lit "a=1; b=2"); (lit "x-own", lit "7")];
        [(lit "x-own", lit "7"); (lit ":path", lit "/b")];
        [(lit ":path", lit "/a"); (lit "cookie", lit "a=1; c=3")]].
Proof.
  destruct C51_nontrivial as [(h & Eh) _]. exists h. split; [exact Eh|]. split; [|split; [vm_compute; discriminate|]].
  - assert (B : forall l, forallb (fun c => c <? 256) l = true -> is_bytes l).
    { intros l H. apply Forall_forall. intros c Hc. rewrite forallb_forall in H. now apply N.ltb_lt, H. }
    repeat constructor; cbn [fst snd]; try lia;
      try (cbn [In] in *; repeat match goal with H : _ \/ _ |- _ => destruct H as [H|H] end; try contradiction; match goal with H : _ = _ |- _ => injection H as <- <- end; apply B; vm_compute; reflexivity);
      cbn; lia.
  - pose proof talk_arrives as X. change (db_coder true = Ok h) in Eh. rewrite Eh in X. cbn [bind] in X. exact X.
Qed.

(** ** C127: a binary value *)

(** The names of ENCODERS, lines 274-295 of bohe.py. *)
Definition encoded_name (k : str) : bool :=
  mem_str k (names ["last-modified"; "date"; "expires"; "if-modified-since"; "if-unmodified-since"; ":status"; "content-length"; "age"; "set-cookie"; "cookie"; "cache-control"; ":method";
    "accept"; "accept-language"; "accept-encoding"; "accept-charset"; "etag"; "if-match"; "if-none-match"; "p3p"]%string).
Definition of_length (v : str) : list (N * message) := [(1, [(lit "content-length", v)])].
Definition run_length year C L (r : res huffman) v := let* h := r in over_octets encoded_name (fun _ l => l) (encode2 year false C L) h 0 code_new code_new (of_length v).
Lemma length_136 year C L : run_length year C L (db_coder false) (lit "136") = Ok [[(lit "content-length", [])]].
Proof. vm_compute. reflexivity. Qed.
Lemma length_5 year C L : run_length year C L (db_coder false) (lit "5") = Err StandardError.
Proof. vm_compute. reflexivity. Qed.
Lemma response_coder : exists h, db_coder false = Ok h.
Proof. destruct (db_coder false) as [h|e] eqn:E; [now exists h|vm_compute in E; discriminate]. Qed.

(** The code's own encoders: the octets of a length are read as code words.  136 arrives as
    nothing at all; 5 raises. *)
Theorem C127_binary_refuted : forall year C L, exists h, db_coder false = Ok h /\
  encode2 year false C L (lit "content-length") (lit "136") = Ok [136; 1] /\
  over_octets encoded_name (fun _ l => l) (encode2 year false C L) h 0 code_new code_new (of_length (lit "136")) = Ok [[(lit "content-length", [])]] /\
  over_octets encoded_name (fun _ l => l) (encode2 year false C L) h 0 code_new code_new (of_length (lit "5")) = Err StandardError.
Proof.
  intros year C L. destruct response_coder as (h & Eh). exists h. split; [exact Eh|]. split; [vm_compute; reflexivity|].
  pose proof (length_136 year C L) as X. pose proof (length_5 year C L) as Y. unfold run_length in X, Y. rewrite Eh in X, Y. cbn [bind] in X, Y. now split.
Qed.
Print Assumptions C127_binary_refuted.
