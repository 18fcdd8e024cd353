(** * Property C42: delta v1's instruction streams. *)
From Coq Require Import List NArith ZArith Bool Arith Lia ZifyN ZifyNat Permutation Sorted.
From Verif Require Import PyBase NBits Bits BB_Model BB_Spec BB_Proofs BB_Read D2Huff_Model D2Huff_Proofs D2Wire_Proofs D2Wire_Frame.
From Verif Require Import D1Huff_Model D1Huff_Proofs Prop_D1Huff D1Wire_Model D1Wire_Proofs D1Wire_Frame.
Import ListNotations.
Open Scope N_scope.
Open Scope py_scope.

(** Indices are 16 bit numbers, strings are octets. *)
Definition idx_fits (i : Z) : Prop := (0 <= i < 2 ^ 16)%Z.
Record fits (i : instr) : Prop := {
  f_toggl : forall x, In x (i_toggl i) -> idx_fits x;
  f_clone : forall x v, In (x, v) (i_clone i) -> idx_fits x /\ is_bytes v;
  f_kvsto : forall k v, In (k, v) (i_kvsto i) -> is_bytes k /\ is_bytes v;
  f_eref : forall k v, In (k, v) (i_eref i) -> is_bytes k /\ is_bytes v
}.

Lemma fits_ok i : fits i -> instr_ok i.
Proof.
  intros [H1 H2 H3 H4]. split; apply Forall_forall.
  - intros x Hx. now apply H1.
  - intros [k v] Hx. now apply H2.
  - intros [k v] Hx. now apply H3.
  - intros [k v] Hx. now apply H4.
Qed.

(** The integers from [s] to [e]. *)
Definition between (s e : Z) : list Z := map (fun n => (s + Z.of_nat n)%Z) (seq 0 (Z.to_nat (e - s + 1))).

(** The operations of a message, toggles first as single ones and as ranges. *)
Definition listing (i : instr) (singles : list Z) (ranges : list (Z * Z)) : list op1 :=
  map Toggl singles ++ map (fun '(s, e) => Trang e s) ranges ++ map (fun '(x, v) => Clone x v) (i_clone i) ++
  map (fun '(k, v) => Kvsto k v) (i_kvsto i) ++ map (fun '(k, v) => Eref k v) (i_eref i).

(** They say what the instructions say: the same indices are toggled, each as
    often as asked for. *)
Definition says (i : instr) (ops : list op1) : Prop := exists singles ranges,
  ops = listing i singles ranges /\ Permutation (singles ++ flat_map (fun '(s, e) => between s e) ranges) (i_toggl i).

Lemma listing_kinds i : flat_map snd (wire_kinds i) = listing i (fst (toggle_ranges (i_toggl i))) (snd (toggle_ranges (i_toggl i))).
Proof.
  unfold wire_kinds, listing. destruct (toggle_ranges (i_toggl i)) as [ot otr]. cbn [flat_map fst snd]. now rewrite app_nil_r.
Qed.
Lemma idx_between l : flat_map range_idx l = flat_map (fun '(s, e) => between s e) l.
Proof. apply flat_map_ext. now intros [s e]. Qed.

Lemma coder_good table h : d1_huffman table = Ok h -> In 256 (map fst table) -> exists ws, good h ws /\ 256 < lenN ws.
Proof.
  intros E Hin. destruct (built_numbered table h E) as (ws & G & Hl & H2 & HP). exists ws. split; [exact G|].
  apply (Permutation_in _ HP) in Hin. apply in_map_iff in Hin. destruct Hin as (k & Ek & Hk). apply in_seq in Hk. unfold lenN. lia.
Qed.

(** ** The toggles are sent as they are *)
Theorem C42_ranges : forall toggl singles ranges, toggle_ranges toggl = (singles, ranges) ->
  Permutation (singles ++ flat_map (fun '(s, e) => between s e) ranges) toggl.
Proof. intros t s r E. destruct (toggle_ranges_ok t s r E) as [H _]. unfold all_idx in H. now rewrite idx_between in H. Qed.
Print Assumptions C42_ranges.

(** ** At most 256 of a kind arrive *)

Lemma few_toggles toggl : (length toggl <= 256)%nat ->
  (length (fst (toggle_ranges toggl)) <= 256)%nat /\ (length (snd (toggle_ranges toggl)) <= 256)%nat.
Proof.
  intros H. destruct (toggle_ranges toggl) as [ot otr] eqn:E. cbn [fst snd]. destruct (toggle_ranges_ok _ _ _ E) as [HP HF].
  apply Permutation_length in HP. unfold all_idx in HP. rewrite app_length in HP.
  assert (L : (length otr <= length (flat_map range_idx otr))%nat); [|lia]. clear -HF. induction HF as [|r l Hr HF IH]; [cbn; lia|].
  cbn [flat_map length]. rewrite app_length. destruct (range_ends r Hr) as [Hin _]. destruct (range_idx r); [contradiction|]. cbn [length]. lia.
Qed.

Theorem C42_roundtrip : forall table h, d1_huffman table = Ok h -> In 256 (map fst table) ->
  forall i gid blob, fits i -> gid < 256 ->
  (length (i_toggl i) <= 256)%nat -> (length (i_clone i) <= 256)%nat -> (length (i_kvsto i) <= 256)%nat -> (length (i_eref i) <= 256)%nat ->
  to_wire1 h i gid = Ok blob -> (N.of_nat (length blob) <= 65536) ->
  exists ops, from_wire1 h blob = Ok (gid, ops) /\ says i ops.
Proof.
  intros table h E Hin i gid blob Hi Hg H1 H2 H3 H4 Eb Hl. destruct (coder_good table h E Hin) as (ws & G & He).
  destruct (few_toggles _ H1) as [Ha Hb]. exists (flat_map snd (wire_kinds i)). split.
  - apply (roundtrip1_ok h ws G He i gid blob (fits_ok i Hi) Hg); [|exact Eb|exact Hl].
    unfold at_most_256, wire_kinds. destruct (toggle_ranges (i_toggl i)) as [ot otr]. cbn [fst snd] in *.
    repeat apply Forall_cons; try apply Forall_nil; cbn [snd]; rewrite map_length; assumption.
  - rewrite listing_kinds. do 2 eexists. split; [reflexivity|]. apply C42_ranges. apply surjective_pairing.
Qed.
Print Assumptions C42_roundtrip.

(** Writing never fails. *)
Theorem C42_writes : forall table h, d1_huffman table = Ok h -> In 256 (map fst table) ->
  forall i gid, fits i -> gid < 256 -> exists blob, to_wire1 h i gid = Ok blob.
Proof.
  intros table h E Hin i gid Hi Hg. destruct (coder_good table h E Hin) as (ws & G & He).
  destruct (to_wire1_ok h ws G He i gid (fits_ok i Hi) Hg) as (x & _ & Ex & _). eauto.
Qed.
Print Assumptions C42_writes.

(** ** More than 256 of a kind do not *)

(** In a message of one frame what was written is what is read exactly when there are at most
    256 single toggles, ranges, clones, stores and ephemeral pairs. *)
Theorem C42_exactly : forall table h, d1_huffman table = Ok h -> In 256 (map fst table) ->
  forall i gid blob, fits i -> gid < 256 -> to_wire1 h i gid = Ok blob -> (N.of_nat (length blob) <= 65536) ->
  forall singles ranges, toggle_ranges (i_toggl i) = (singles, ranges) ->
  ((exists g, from_wire1 h blob = Ok (g, listing i singles ranges)) <->
   (length singles <= 256 /\ length ranges <= 256 /\ length (i_clone i) <= 256 /\ length (i_kvsto i) <= 256 /\ length (i_eref i) <= 256)%nat).
Proof.
  intros table h E Hin i gid blob Hi Hg Eb Hl singles ranges Et. destruct (coder_good table h E Hin) as (ws & G & He).
  assert (Em : at_most_256 i <-> (length singles <= 256 /\ length ranges <= 256 /\ length (i_clone i) <= 256 /\ length (i_kvsto i) <= 256 /\ length (i_eref i) <= 256)%nat).
  { unfold at_most_256, wire_kinds. rewrite Et. rewrite !Forall_cons_iff. cbn [snd]. rewrite !map_length. intuition. }
  pose proof (listing_kinds i) as El. rewrite Et in El. cbn [fst snd] in El. rewrite <- El. rewrite <- Em. split.
  - intros (g & Er). destruct (Forall_Exists_dec (fun c : kind * list op1 => (length (snd c) <= 256)%nat) (fun c => le_dec _ _) (wire_kinds i)) as [F|X]; [exact F|].
    exfalso. refine (over_256_lost h ws G He i gid blob g (fits_ok i Hi) Hg _ Eb Hl Er). intros F. unfold at_most_256 in F.
    apply Exists_Forall_neg in X; [now apply X|]. intros c. destruct (le_dec (length (snd c)) 256); tauto.
  - intros Hm. exists gid. now apply (roundtrip1_ok h ws G He i gid blob (fits_ok i Hi) Hg).
Qed.
Print Assumptions C42_exactly.

(** No two indices are equal or adjacent. *)
Definition spread (l : list Z) : Prop := StronglySorted (fun a b => (a + 1 < b)%Z) l.

Lemma spread_sort l : spread l -> sort_z l = l.
Proof.
  induction 1 as [|x l HS IH HF]; [reflexivity|]. cbn [sort_z fold_right]. fold (sort_z l). rewrite IH. destruct l as [|y l]; [reflexivity|].
  cbn [insert_z]. inversion HF; subst. destruct (Z.leb_spec x y); [reflexivity|lia].
Qed.
Lemma spread_merge l : spread l -> forall ot, (forall x t, In x l -> In t ot -> (t + 1 < x)%Z) -> merge_toggles l ot [] = (rev l ++ ot, []).
Proof.
  induction 1 as [|x l HS IH HF]; intros ot Hot; [reflexivity|]. cbn [merge_toggles rev]. rewrite <- app_assoc. cbn [app].
  rewrite Forall_forall in HF. destruct ot as [|t ot].
  - apply IH. intros y t Hy [<-|[]]. now apply HF.
  - destruct (Z.eqb_spec (x - t) 1) as [C|_]; [specialize (Hot x t (or_introl eq_refl) (or_introl eq_refl)); lia|].
    apply IH. intros y u Hy [<-|Hu]; [now apply HF|]. apply Hot; [now right|exact Hu].
Qed.
Lemma spread_ranges l : spread l -> toggle_ranges l = (l, []).
Proof.
  intros H. unfold toggle_ranges. rewrite spread_sort by exact H. rewrite spread_merge by (try exact H; intros ? ? ? []).
  rewrite app_nil_r, rev_involutive. reflexivity.
Qed.

(** With 257 toggles the last one disappears without any complaint. *)
Theorem C42_257th_lost : forall table h, d1_huffman table = Ok h -> In 256 (map fst table) ->
  forall toggl gid blob, length toggl = 257%nat -> spread toggl -> (forall x, In x toggl -> idx_fits x) -> gid < 256 ->
  to_wire1 h (mk_instr toggl [] [] []) gid = Ok blob -> from_wire1 h blob = Ok (gid, map Toggl (firstn 256 toggl)).
Proof.
  intros table h E Hin toggl gid blob Hn Hs Hf Hg Eb. destruct (coder_good table h E Hin) as (ws & G & He).
  set (i := mk_instr toggl [] [] []) in *. assert (Hi : instr_ok i).
  { apply fits_ok. split; cbn [i_toggl i_clone i_kvsto i_eref i]; [exact Hf|intros ? ? []|intros ? ? []|intros ? ? []]. }
  assert (Ep : payload1 ws i = chunk_oct ws (KToggl, map Toggl toggl)).
  { unfold payload1, wire_kinds. cbn [i_toggl i_clone i_kvsto i_eref i]. rewrite spread_ranges by exact Hs. unfold chunks_oct. cbn [flat_map map]. now rewrite app_nil_r. }
  destruct (from_wire1_head h ws G He i gid blob Hi Hg Eb) as (b & A & x & B & Ha & _ & Hz & _ & ->).
  set (l1 := map Toggl (firstn 256 toggl)). set (l2 := map Toggl (skipn 256 toggl)).
  assert (El : map Toggl toggl = l1 ++ l2) by (unfold l1, l2; rewrite <- map_app, firstn_skipn; reflexivity).
  assert (L1 : length l1 = 256%nat) by (unfold l1; rewrite map_length, firstn_length; lia).
  assert (L2 : length (ops_oct ws l2) = 2%nat).
  { unfold l2. assert (Hl : length (skipn 256 toggl) = 1%nat) by (rewrite skipn_length; lia). destruct (skipn 256 toggl) as [|t [|? ?]]; try discriminate Hl. reflexivity. }
  assert (Eo : payload1 ws i = chunk_oct ws (KToggl, l1) ++ ops_oct ws l2).
  { rewrite Ep, El. unfold chunk_oct. cbn [fst snd]. unfold lenN. rewrite app_length, L1. rewrite ops_oct_app.
    destruct l1 as [|o l1']; [discriminate|]. cbn [app]. do 2 f_equal. change (N.of_nat 256) with 256. lia. }
  assert (Lo : length (chunk_oct ws (KToggl, l1)) = 514%nat).
  { assert (Lops : forall l, length (ops_oct ws (map Toggl l)) = (2 * length l)%nat).
    { induction l as [|t l IH]; [reflexivity|]. cbn [map ops_oct flat_map]. rewrite app_length. unfold ops_oct in IH. rewrite IH. cbn. lia. }
    unfold chunk_oct. cbn [fst snd]. destruct l1 as [|o l1'] eqn:E1; [discriminate|]. rewrite <- E1. rewrite app_length. unfold l1. rewrite Lops, firstn_length, Hn. reflexivity. }
  assert (Lp : length (payload1 ws i) = 516%nat) by (rewrite Eo, app_length, Lo, L2; reflexivity).
  rewrite (Hz ltac:(unfold lenN; lia)), app_nil_r, Eo, bob_app in B.
  assert (Hc : chunk_ok (KToggl, l1)).
  { apply Forall_map, Forall_forall. intros t Ht. cbn. split; [reflexivity|]. apply Hf. rewrite <- (firstn_skipn 256 toggl). apply in_or_app. now left. }
  destruct (read_chunk1_ok h ws G He KToggl l1 b A _ Hc ltac:(lia) Ha B) as (b1 & E1 & B1).
  unfold lenN. rewrite Lp. change (Z.of_N (N.min (N.of_nat 516) 65527) * 8)%Z with 4128%Z. cbn [read_frame1].
  change (16 <? 4128)%Z with true. cbv iota. rewrite E1. cbn [bind app].
  rewrite (D1Wire_Proofs.rd_remaining ws He _ _ _ B), (D1Wire_Proofs.rd_remaining ws He _ _ _ B1), app_length, !bits_of_bytes_length, Lo, L2.
  change (4128 - (Z.of_nat (8 * 514 + 8 * 2) - Z.of_nat (8 * 2)))%Z with 16%Z.
  destruct (bb_num b); reflexivity.
Qed.
Print Assumptions C42_257th_lost.

(** So the claim is false. *)
Theorem C42_over_256_refuted : exists i gid, fits i /\ gid < 256 /\ forall table h, d1_huffman table = Ok h -> In 256 (map fst table) ->
  exists blob, to_wire1 h i gid = Ok blob /\ forall ops, from_wire1 h blob = Ok (gid, ops) -> ~ says i ops.
Proof.
  set (t := map (fun n => (2 * Z.of_nat n)%Z) (seq 0 257)). exists (mk_instr t [] [] []), 1.
  assert (Hf : forall x, In x t -> idx_fits x).
  { intros x Hx. apply in_map_iff in Hx. destruct Hx as (n & <- & Hn). apply in_seq in Hn. unfold idx_fits. change (2 ^ 16)%Z with 65536%Z. lia. }
  assert (Hi : fits (mk_instr t [] [] [])) by (split; cbn; [exact Hf|intros ? ? []|intros ? ? []|intros ? ? []]).
  split; [exact Hi|]. split; [reflexivity|]. intros table h E Hin. destruct (C42_writes table h E Hin _ 1 Hi eq_refl) as (blob & Eb). exists blob. split; [exact Eb|].
  assert (Hs : spread t).
  { unfold spread, t. generalize 0%nat at 1. generalize 257%nat. induction n as [|n IH]; intros a; cbn [seq map]; constructor; [apply IH|].
    apply Forall_map, Forall_forall. intros m Hm. apply in_seq in Hm. lia. }
  intros ops Er (s & r & -> & HP). rewrite (C42_257th_lost table h E Hin t 1 blob ltac:(unfold t; now rewrite map_length, seq_length) Hs Hf eq_refl Eb) in Er.
  apply (f_equal (fun r => match r with Ok x => snd x | Err _ => [] end)) in Er. cbn [snd] in Er. unfold listing in Er. cbn [i_clone i_kvsto i_eref map] in Er. rewrite !app_nil_r in Er.
  destruct r as [|[s0 e0] r].
  - cbn [flat_map i_toggl] in HP. rewrite app_nil_r in HP. cbn [map] in Er. rewrite app_nil_r in Er. apply (f_equal (@length op1)) in Er. rewrite !map_length, firstn_length in Er.
    apply Permutation_length in HP. unfold t in *. rewrite map_length, seq_length in *. lia.
  - assert (X : In (Trang e0 s0) (map Toggl (firstn 256 t))) by (rewrite Er; apply in_or_app; right; now left).
    apply in_map_iff in X. destruct X as (? & C & _). discriminate.
Qed.
Print Assumptions C42_over_256_refuted.

(** A message with every kind of operation, with toggles that make up ranges. *)
Definition c42_sample : instr :=
  mk_instr [9; 4; 65535; 5; 7; 6; 100]%Z [(12%Z, [104; 105]); (65535%Z, [])] [([97], [98; 0; 255]); ([], [])] [([58; 112], [47])].
Example C42_nontrivial :
  fits c42_sample /\
  toggle_ranges (i_toggl c42_sample) = ([9; 100; 65535], [(4, 7)])%Z /\
  match d1_huffman d1_request_table with
  | Ok h => match to_wire1 h c42_sample 7 with
            | Ok blob => length blob = 54%nat /\ from_wire1 h blob =
                Ok (7, [Toggl 9; Toggl 100; Toggl 65535; Trang 7 4; Clone 12 [104; 105]; Clone 65535 []; Kvsto [97] [98; 0; 255]; Kvsto [] []; Eref [58; 112] [47]])
            | Err _ => False
            end
  | Err _ => False
  end.
Proof.
  split; [|split; [reflexivity|vm_compute; split; reflexivity]].
  split; cbn [c42_sample i_toggl i_clone i_kvsto i_eref]; unfold idx_fits; change (2 ^ 16)%Z with 65536%Z.
  - intros x [H|[H|[H|[H|[H|[H|[H|[]]]]]]]]; lia.
  - intros x v [H|[H|[]]]; injection H as <- <-; split; try lia; repeat constructor.
  - intros k v [H|[H|[]]]; injection H as <- <-; split; repeat constructor.
  - intros k v [H|[]]; injection H as <- <-; split; repeat constructor.
Qed.

(** ** C51: payloads larger than one frame *)

Lemma kept1_prefix ws cs : forall len, exists rest, cs = kept1 ws len cs ++ rest.
Proof.
  induction cs as [|c r IH]; intros len; [exists []; reflexivity|]. cbn [kept1]. destruct (16 <? len)%Z; [|exists (c :: r); reflexivity].
  destruct (IH (len - 8 * Z.of_nat (length (chunk_oct ws c)))%Z) as (rest & E). exists rest. cbn [app]. now rewrite <- E.
Qed.

(** What arrives is a beginning of what was sent, whatever the size. *)
Theorem C51_prefix : forall table h, d1_huffman table = Ok h -> In 256 (map fst table) ->
  forall i gid blob, fits i -> gid < 256 ->
  (length (i_toggl i) <= 256)%nat -> (length (i_clone i) <= 256)%nat -> (length (i_kvsto i) <= 256)%nat -> (length (i_eref i) <= 256)%nat ->
  to_wire1 h i gid = Ok blob ->
  exists got lost, from_wire1 h blob = Ok (gid, got) /\ says i (got ++ lost).
Proof.
  intros table h E Hin i gid blob Hi Hg H1 H2 H3 H4 Eb. destruct (coder_good table h E Hin) as (ws & G & He).
  destruct (few_toggles _ H1) as [Ha Hb].
  assert (Hm : at_most_256 i).
  { unfold at_most_256, wire_kinds. destruct (toggle_ranges (i_toggl i)) as [ot otr]. cbn [fst snd] in *.
    repeat apply Forall_cons; try apply Forall_nil; cbn [snd]; rewrite map_length; assumption. }
  pose proof (from_wire1_ok h ws G He i gid blob (fits_ok i Hi) Hg Hm Eb) as Er.
  match type of Er with _ = Ok (_, flat_map snd (kept1 _ ?n ?l)) => destruct (kept1_prefix ws l n) as (rest & Ep) end.
  eexists. exists (flat_map snd rest). split; [exact Er|]. 
  match goal with |- says _ ?x => replace x with (flat_map snd (wire_kinds i)) by (rewrite <- ops_nonempty; rewrite Ep at 1; apply flat_map_app) end.
  rewrite listing_kinds.
  do 2 eexists. split; [reflexivity|]. apply C42_ranges. apply surjective_pairing.
Qed.
Print Assumptions C51_prefix.

(** A long value and an ephemeral pair: the pair is lost, whatever the coder. *)
Definition long1 (v : str) : instr := mk_instr [] [] [([97], v)] [([58], [47])].

Lemma long1_lost : forall table h, d1_huffman table = Ok h -> In 256 (map fst table) -> forall lv, is_bytes lv -> (Z.of_nat (length lv) >= 524288)%Z ->
  fits (long1 lv) /\ exists blob, to_wire1 h (long1 lv) 1 = Ok blob /\ exists got, from_wire1 h blob = Ok (1, got) /\ ~ says (long1 lv) got.
Proof.
  intros table h E Hin lv Hlong Ll.
  assert (Hi : fits (long1 lv)).
  { split; unfold long1; cbn [i_toggl i_clone i_kvsto i_eref]; [intros ? []|intros ? ? []| |]; intros k v [H|[]]; injection H as <- <-; split; try exact Hlong; repeat constructor. }
  split; [exact Hi|]. destruct (C42_writes table h E Hin (long1 lv) 1 Hi eq_refl) as (blob & Eb). exists blob. split; [exact Eb|].
  destruct (coder_good table h E Hin) as (ws & G & He).
  assert (Hm : at_most_256 (long1 lv)).
  { unfold at_most_256, wire_kinds, long1. cbn [i_toggl i_clone i_kvsto i_eref]. change (toggle_ranges []) with (@nil Z, @nil (Z * Z)). cbv iota.
    repeat apply Forall_cons; try apply Forall_nil; cbn [snd map length]; lia. }
  eexists. split; [exact (from_wire1_ok h ws G He (long1 lv) 1 blob (fits_ok _ Hi) eq_refl Hm Eb)|].
  assert (En : nonempty (wire_kinds (long1 lv)) = [(KKvsto, [Kvsto [97] lv]); (KEref, [Eref [58] [47]])]) by reflexivity.
  rewrite En.
  assert (Hlen : (65536 <= Z.of_nat (length (chunk_oct ws (KKvsto, [Kvsto [97%N] lv]))))%Z).
  { unfold chunk_oct. cbn [snd fst]. rewrite app_length. unfold ops_oct. cbn [flat_map]. rewrite app_nil_r. cbn [op_oct]. rewrite app_length.
    pose proof (sbits_text h ws G He 0 lv Hlong) as T. rewrite <- soct_bits, bits_of_bytes_length in T. lia. }
  set (F := (8 * Z.of_N (N.min (lenN (payload1 ws (long1 lv))) 65527))%Z). assert (HF : (F <= 524216)%Z) by (unfold F; lia). clearbody F.
  intros (s & r & Es & _). assert (X : In (Eref [58] [47]) (listing (long1 lv) s r)).
  { unfold listing, long1. cbn [i_eref map]. rewrite !in_app_iff. right. right. right. right. now left. }
  rewrite <- Es in X. clear Es.
  match type of X with In _ (flat_map snd ?k) => assert (Z1 : k = [] \/ k = [(KKvsto, [Kvsto [97] lv])]) end.
  { cbn [kept1]. destruct (16 <? F)%Z; [|now left]. right.
    match goal with |- context[(16 <? ?x)%Z] => destruct (Z.ltb_spec 16 x) as [C|_] end; [lia|reflexivity]. }
  destruct Z1 as [Z1|Z1]; rewrite Z1 in X; cbn [flat_map snd app In] in X; [exact X|]. destruct X as [X|[]]. discriminate.
Qed.

Theorem C51_fragmentation_refuted : forall table h, d1_huffman table = Ok h -> In 256 (map fst table) ->
  exists i, fits i /\ exists blob, to_wire1 h i 1 = Ok blob /\ exists got, from_wire1 h blob = Ok (1, got) /\ ~ says i got.
Proof.
  intros table h E Hin. exists (long1 (repeat 97 (N.to_nat 524288))). apply (long1_lost table h E Hin).
  - generalize (N.to_nat 524288). intros n. induction n; constructor; [reflexivity|assumption].
  - rewrite repeat_length. lia.
Qed.
Print Assumptions C51_fragmentation_refuted.

(** It is not an artefact of a coder that cannot be built. *)
Example C51_nontrivial : (exists h, d1_huffman d1_request_table = Ok h) /\ In 256 (map fst d1_request_table).
Proof.
  destruct (C50_shipped_tables d1_request_table (or_introl eq_refl)) as [Hn Hin]. split; [|exact Hin].
  now apply (C50_built_iff_numbered d1_request_table).
Qed.
