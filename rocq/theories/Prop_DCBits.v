(** * Property C124: delta2_bohe's messages, octet by octet, and its groups. *)
From Coq Require Import String List NArith ZArith Bool Arith Lia ZifyN ZifyNat Permutation Sorted.
From Verif Require Import PyBase PyStr NBits Bits BB_Model BB_Spec BB_Proofs BB_Read D2Huff_Model D2Huff_Proofs D2Wire_Proofs D2Wire_Frame Prop_D2HuffOpt
  D1Huff_Model D1Huff_Proofs Prop_D1Huff D1Wire_Model D1Wire_Proofs D1Wire_Frame Prop_D1Wire Prop_D2Ranges Prop_D1Bits Small_Model LB_Model Lib_Model Lib_Spec Lib_Proofs Bohe_Model Host_Model Prop_HostGroups
  DC_Model DCW_Model DB_Model DB_Proofs DB_Ops DB_Session DB_Wire DB_Text Prop_DB Prop_DB2 Prop_DBBits PyStr.
Import ListNotations.
Open Scope N_scope.
Open Scope py_scope.

(** ** Specification *)

(** The head of a frame: length, flags, stream id 1234 with its highest bit, type and group. *)
Definition headg (gid len : N) : str := [len / 256; len mod 256; 1; 128; 0; 4; 210; 8; gid].
Inductive framedg (gid : N) : str -> str -> Prop :=
| last_frameg p : lenN p <= 65527 -> framedg gid p (headg gid (lenN p) ++ p)
| more_framesg p r : 65527 < lenN p -> framedg gid (skipn (N.to_nat 65527) p) r -> framedg gid p (headg gid 65527 ++ p ++ r).
(** Blocks as in delta_bohe's messages (C120). *)
Definition writteng (h : huffman) (gid : N) (singles : list Z) (ranges : list (Z * Z)) (values : list (Z * str * bool)) (pairs : list (str * str * bool)) (blob : str) : Prop :=
  exists p, blocksb h [(1, map WToggl singles); (2, map (fun r => WTrang (snd r) (fst r)) ranges); (3, map (fun c => WClone (fst (fst c)) (snd (fst c)) (snd c)) values);
      (4, map (fun c => WKvsto (fst (fst c)) (snd (fst c)) (snd c)) pairs)] p /\ framedg gid p blob.

(** ** Proofs *)

Definition headx (len flags sid gid typ : N) : list N := o16 len ++ [flags] ++ o32 (N.lor 0x80000000 sid) ++ [typ] ++ [gid].
Lemma headx_bytes len flags sid gid typ : len < 65536 -> flags < 256 -> N.lor 0x80000000 sid < 2 ^ 32 -> gid < 256 -> typ < 256 -> is_bytes (headx len flags sid gid typ).
Proof.
  intros H1 H2 H3 H4 H5. unfold headx, is_bytes. rewrite !Forall_app.
  split; [now apply o16_bytes|]. split; [now repeat constructor|]. split; [now apply o32_bytes|]. split; now repeat constructor.
Qed.
Lemma frame_head2_ok len flags sid gid typ b A R : len < 65536 -> flags < 256 -> N.lor 0x80000000 sid < 2 ^ 32 -> gid < 256 -> typ < 256 -> rd b A R ->
  exists b', frame_head2 b len flags sid gid typ = Ok b' /\ rd b' A (R ++ bits_of_bytes (headx len flags sid gid typ)).
Proof.
  intros H1 H2 H3 H4 H5 Hb. unfold frame_head2.
  destruct (rd_store16 b A R len Hb H1) as (b1 & E1 & B1). rewrite E1. cbn [bind].
  destruct (rd_store8 b1 A _ flags B1 H2) as (b2 & E2 & B2). rewrite E2. cbn [bind].
  destruct (rd_store32 b2 A _ _ B2 H3) as (b3 & E3 & B3). rewrite E3. cbn [bind].
  destruct (rd_store8 b3 A _ typ B3 H5) as (b4 & E4 & B4). rewrite E4. cbn [bind].
  destruct (rd_store8 b4 A _ gid B4 H4) as (b5 & E5 & B5). exists b5. split; [exact E5|].
  unfold headx. rewrite !bob_app, !bob_one, !app_assoc. exact B5.
Qed.
(** A group that does not fit an octet. *)
Lemma frame_head2_bad len flags sid gid typ b A R : len < 65536 -> flags < 256 -> N.lor 0x80000000 sid < 2 ^ 32 -> 256 <= gid -> typ < 256 -> rd b A R ->
  frame_head2 b len flags sid gid typ = Err StructError.
Proof.
  intros H1 H2 H3 H4 H5 Hb. unfold frame_head2.
  destruct (rd_store16 b A R len Hb H1) as (b1 & E1 & B1). rewrite E1. cbn [bind].
  destruct (rd_store8 b1 A _ flags B1 H2) as (b2 & E2 & B2). rewrite E2. cbn [bind].
  destruct (rd_store32 b2 A _ _ B2 H3) as (b3 & E3 & B3). rewrite E3. cbn [bind].
  destruct (rd_store8 b3 A _ typ B3 H5) as (b4 & E4 & B4). rewrite E4. cbn [bind].
  unfold bb_store8, pack_B. destruct (N.ltb_spec gid 256); [lia|reflexivity].
Qed.

Section Written.
  Context (h : huffman) (ws : list (list bool)) (G : good h ws) (He : 256 < lenN ws) (gid : N) (Hg : gid < 256).

  Lemma put_frames2_are : forall fuel p b A R, is_bytes p -> (length p < fuel)%nat -> rd b A R ->
    exists b' y, put_frames2 gid fuel b p (lenN p) 65527 = Ok b' /\ framedg gid p y /\ is_bytes y /\ rd b' A (R ++ bits_of_bytes y).
  Proof.
    induction fuel as [|f IH]; intros p b A R Hp Hf Hb; [lia|]. cbn [put_frames2]. cbv zeta.
    set (c := N.min (lenN p) 65527). destruct (N.leb_spec c (lenN p)) as [_|L]; [|unfold c in L; lia].
    assert (Hc : c < 65536) by (unfold c; lia).
    destruct (frame_head2_ok c 1 1234 gid 8 b A R Hc ltac:(lia) sid1_ok Hg ltac:(lia) Hb) as (b1 & E1 & B1). rewrite E1. cbn [bind].
    destruct (store_octets b1 A _ p (N.to_nat c) B1 Hp) as (b2 & E2 & B2). rewrite E2. cbn [bind].
    rewrite <- app_assoc, <- bob_app in B2.
    assert (Eh : headx c 1 1234 gid 8 = headg gid c) by reflexivity. rewrite Eh in B2.
    assert (Hh : is_bytes (headg gid c)) by (rewrite <- Eh; apply headx_bytes; try reflexivity; assumption).
    destruct (N.leb_spec (lenN p) 65527) as [L|L].
    - exists b2, (headg gid (lenN p) ++ p). assert (Ec : c = lenN p) by (unfold c; lia). rewrite <- Ec. split; [reflexivity|]. split; [rewrite Ec; now apply last_frameg|].
      split; [apply Forall_app; now split|exact B2].
    - assert (Ec : c = 65527) by (unfold c; lia). rewrite Ec in *.
      assert (Hsk : is_bytes (skipn (N.to_nat 65527) p)).
      { unfold is_bytes in *. rewrite <- (firstn_skipn (N.to_nat 65527) p) in Hp. apply Forall_app in Hp. apply Hp. }
      assert (Hlen : lenN p - 65527 = lenN (skipn (N.to_nat 65527) p)) by (unfold lenN in *; rewrite skipn_length; clear -L; lia).
      rewrite Hlen. assert (Hsl : (length (skipn (N.to_nat 65527) p) < f)%nat).
      { clear IH. rewrite skipn_length. unfold lenN in *. clear -Hf L. lia. }
      destruct (IH (skipn (N.to_nat 65527) p) b2 A _ Hsk Hsl B2) as (b3 & y & E3 & Fy & Hy & B3).
      exists b3, (headg gid 65527 ++ p ++ y). split; [exact E3|]. split; [apply more_framesg; [exact L|exact Fy]|].
      split; [apply Forall_app; split; [exact Hh|apply Forall_app; split; [exact Hp|exact Hy]]|].
      rewrite <- app_assoc, <- bob_app, <- app_assoc in B3. exact B3.
  Qed.

  Lemma real_ops2_is i : instrs_ok i -> exists blob, real_ops2 h i gid = Ok blob /\
    framedg gid (payload ws i) blob /\ blocksb h [(1, map WToggl (fst (toggle_ranges (n_toggl i)))); (2, map (fun r => WTrang (snd r) (fst r)) (snd (toggle_ranges (n_toggl i))));
      (3, map (fun c => WClone (fst (fst c)) (snd (fst c)) (snd c)) (n_clone i)); (4, map (fun c => WKvsto (fst (fst c)) (snd (fst c)) (snd c)) (n_kvsto i))] (payload ws i).
  Proof.
    intros Hi. unfold real_ops2, serialize2. rewrite put_instrs_kinds.
    destruct (put_kinds_ok h ws G He (kinds i) (kinds_ok i Hi) bb_new [] [] wr_new) as (pb & E0 & B0 & Hp). rewrite E0. cbn [bind]. fold (payload ws i) in *.
    unfold bb_all. destruct (rd_out _ _ _ B0) as [Eo _]. rewrite Eo, (rd_num _ _ _ B0). cbn [app length Nat.add].
    rewrite bytes_of_bits_of_bytes by exact Hp. rewrite bits_of_bytes_length.
    destruct (frame_head2_ok 0 0 0 gid 0 bb_new [] [] ltac:(reflexivity) ltac:(reflexivity) ltac:(reflexivity) Hg ltac:(reflexivity) wr_new) as (fb & Ef & Bf).
    rewrite Ef. cbn [bind]. cbv zeta.
    assert (Efb : bb_bytes fb = 9%nat).
    { unfold bb_bytes. rewrite (rd_num _ _ _ Bf). cbn [app]. rewrite bits_of_bytes_length. reflexivity. }
    rewrite Efb. change (65536 - N.of_nat 9) with 65527.
    assert (El : N.of_nat ((8 * length (payload ws i) + 7) / 8) = lenN (payload ws i)).
    { unfold lenN. f_equal. symmetry. apply (Nat.div_unique _ 8 _ 7); lia. }
    rewrite El.
    destruct (put_frames2_are (S (length (payload ws i))) (payload ws i) bb_new [] [] Hp ltac:(lia) wr_new) as (b & y & E & Fy & Hy & B).
    rewrite E. cbn [bind app] in *. destruct (copy_bits b _ B) as (d & Ed & Bd). rewrite Ed. cbn [bind fst]. eexists. split; [reflexivity|].
    destruct (rd_out _ _ _ Bd) as [-> _]. cbn [app]. rewrite (bytes_of_bits_of_bytes y Hy).
    split; [exact Fy|]. pose proof (blocksb_are h ws G He (kinds i) (kinds_ok i Hi)) as X. unfold payload. revert X. unfold kinds.
    destruct (toggle_ranges (n_toggl i)) as [ot otr]. cbn [map fst snd kind_val].
    rewrite (map_ext (fun '(s, e) => WTrang e s) (fun r => WTrang (snd r) (fst r)) ltac:(now intros [s e])).
    rewrite (map_ext (fun '(n, v, f) => WClone n v f) (fun c => WClone (fst (fst c)) (snd (fst c)) (snd c)) ltac:(now intros [[n v] f])).
    rewrite (map_ext (fun '(k, v, f) => WKvsto k v f) (fun c => WKvsto (fst (fst c)) (snd (fst c)) (snd c)) ltac:(now intros [[k v] f])). exact (fun X => X).
  Qed.
End Written.

Lemma framedg_det gid p a : framedg gid p a -> forall b, framedg gid p b -> a = b.
Proof.
  induction 1 as [p L|p r L F IH]; intros b Hb; inversion Hb as [p' L'|p' r' L' F']; subst.
  - reflexivity.
  - exfalso. clear -L L'. lia.
  - exfalso. clear -L L'. lia.
  - rewrite (IH _ F'). reflexivity.
Qed.
Lemma writteng_det h gid s r v k a b : writteng h gid s r v k a -> writteng h gid s r v k b -> a = b.
Proof. intros (p & Bp & F) (q & Bq & F'). assert (p = q) by (exact (blocksb_det _ _ _ Bp _ Bq)). subst q. exact (framedg_det _ _ _ F _ F'). Qed.
Lemma writteng_ninth h gid s r v k a : writteng h gid s r v k a -> nth_error a 8 = Some gid.
Proof. intros (p & _ & F). destruct F; reflexivity. Qed.

(** ** C124 *)

(** The octets of a message are those of the description, and no others are. *)
Theorem C124_octets : forall is_request h i gid blob, db_coder is_request = Ok h -> instrs_ok i -> NoDup (n_toggl i) -> gid < 256 ->
  (real_ops2 h i gid = Ok blob <-> exists singles ranges, arranged (n_toggl i) singles ranges /\ writteng h gid singles ranges (n_clone i) (n_kvsto i) blob).
Proof.
  intros is_request h i gid blob Eh Hi Hn Hg. destruct (coder_words is_request h Eh) as (ws & G & He).
  destruct (real_ops2_is h ws G He gid Hg i Hi) as (b & E & F & W). destruct (toggle_ranges (n_toggl i)) as [ot otr] eqn:Et. cbn [fst snd] in W. pose proof (toggles_arranged _ _ _ Hn Et) as Ar.
  assert (W' : writteng h gid ot otr (n_clone i) (n_kvsto i) b) by (exists (payload ws i); now split). split.
  - intros E'. assert (b = blob) by congruence. subst b. exists ot, otr. now split.
  - intros (s & r & Ar' & W2). destruct (arranged_det _ _ _ _ _ Ar Ar') as [<- <-]. rewrite E. f_equal. exact (writteng_det _ _ _ _ _ _ _ _ W' W2).
Qed.
Print Assumptions C124_octets.

(** A message that fits one frame is delta_bohe's with the group after its eighth octet. *)
Theorem C124_inserted : forall is_request h i gid blob, db_coder is_request = Ok h -> instrs_ok i -> gid < 256 ->
  real_ops h i = Ok blob -> lenN blob <= 65535 -> real_ops2 h i gid = Ok (firstn 8 blob ++ [gid] ++ skipn 8 blob).
Proof.
  intros is_request h i gid blob Eh Hi Hg E L. destruct (coder_words is_request h Eh) as (ws & G & He).
  destruct (real_ops_is h ws G He i Hi) as (b & E' & (p & Bp & Fp)). assert (b = blob) by congruence. subst b. clear E'.
  destruct (real_ops2_is h ws G He gid Hg i Hi) as (b & E' & F & W). rewrite E'. f_equal.
  assert (p = payload ws i) by (exact (blocksb_det _ _ _ Bp _ W)). subst p.
  assert (Lp : lenN (payload ws i) <= 65527 /\ blob = headb (lenN (payload ws i)) ++ payload ws i).
  { inversion Fp as [p Lq|p r Lq F']; subst.
    - split; [|reflexivity]. unfold lenN in *. rewrite app_length in L. cbn [headb length] in L. lia.
    - exfalso. unfold lenN in *. rewrite !app_length in L. cbn [headb length] in L. lia. }
  destruct Lp as [Lp ->]. inversion F as [p Lq|p r Lq F']; subst; [reflexivity|exfalso; lia].
Qed.
Print Assumptions C124_inserted.

(** The group has an octet: a message for group 256 or a later one raises struct.error. *)
Theorem C124_group_refused : forall is_request h i gid, db_coder is_request = Ok h -> instrs_ok i -> 256 <= gid -> real_ops2 h i gid = Err StructError.
Proof.
  intros is_request h i gid Eh Hi Hg. destruct (coder_words is_request h Eh) as (ws & G & He). unfold real_ops2, serialize2. rewrite put_instrs_kinds.
  destruct (put_kinds_ok h ws G He (kinds i) (kinds_ok i Hi) bb_new [] [] wr_new) as (pb & E0 & B0 & Hp). rewrite E0. cbn [bind]. destruct (bb_all pb) as [pl nb].
  rewrite (frame_head2_bad 0 0 0 gid 0 bb_new [] [] ltac:(reflexivity) ltac:(reflexivity) ltac:(reflexivity) Hg ltac:(reflexivity) wr_new). reflexivity.
Qed.
Print Assumptions C124_group_refused.
