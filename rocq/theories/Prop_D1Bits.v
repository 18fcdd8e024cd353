(** * Property C119: delta (v1)'s messages, octet by octet. *)
From Coq Require Import String List NArith ZArith Bool Arith Lia ZifyN ZifyNat Permutation Sorted.
From Verif Require Import PyBase NBits Bits BB_Model BB_Spec BB_Proofs Prop_BB BB_Read D2Huff_Model D2Huff_Proofs D2Wire_Proofs D2Wire_Frame Prop_D2HuffOpt
  PyStr Lib_Model Lib_Spec Lib_Proofs Small_Model D2Store_Model D2Code_Model Prop_D2Ranges D2Code_Sets D2Code_Exec D2Code_Make D2Code_Round D2Code_Says Prop_D2Bits
  D1Huff_Model D1Huff_Proofs Prop_D1Huff D1Wire_Model D1Wire_Proofs D1Wire_Frame Prop_D1Wire D1Code_Model D1Code_Inv D1Code_Store D1Code_Exec D1Code_Round Prop_D1Code Prop_D1Names D1Code_Choice.
Import ListNotations.
Open Scope N_scope.
Open Scope py_scope.

(** ** Specification *)

(** Two octets, the higher one first. *)
Definition two (i : Z) : str := [Z.to_N (i / 256); Z.to_N (i mod 256)].

(** The toggled indices without a neighbour, and the runs of neighbours as first and last,
    both in ascending order. *)
Record arranged (toggl singles : list Z) (ranges : list (Z * Z)) : Prop := {
  ar_single : forall i, In i singles <-> alone (fun z => In z toggl) i;
  ar_range : forall s e, In (s, e) ranges <-> run_of (fun z => In z toggl) e s;
  ar_up : up singles;
  ar_up2 : up (map snd ranges) }.

Section Message.
  Context (h : huffman).

  (** A text: the words of its octets and that of the end mark, and zeros up to the
      end of the octet. *)
  Definition text1 (s p : str) : Prop :=
    is_bytes p /\ exists k, (k < 8)%nat /\ bits_of_bytes p = flat_map (word_for h) (s ++ [256]) ++ repeat false k.

  (** A range is sent with its last index first. *)
  Inductive operation1 : op1 -> str -> Prop :=
  | sends_toggl i : operation1 (Toggl i) (two i)
  | sends_trang i s : operation1 (Trang i s) (two i ++ two s)
  | sends_clone i v b : text1 v b -> operation1 (Clone i v) (two i ++ b)
  | sends_kvsto k v a b : text1 k a -> text1 v b -> operation1 (Kvsto k v) (a ++ b)
  | sends_eref k v a b : text1 k a -> text1 v b -> operation1 (Eref k v) (a ++ b).
  Inductive operations1 : list op1 -> str -> Prop :=
  | sends_none : operations1 [] []
  | sends_more o ops a b : operation1 o a -> operations1 ops b -> operations1 (o :: ops) (a ++ b).

  (** All operations of a kind: an octet for the kind, one less than how many there are
      as far as an octet goes, and then all of them. *)
  Inductive block1 (k : N) : list op1 -> str -> Prop :=
  | no_block : block1 k [] []
  | a_block ops p : ops <> [] -> operations1 ops p -> block1 k ops ([k; N.min 255 (lenN ops - 1)] ++ p).

  Definition kind_no (o : op1) : N := match o with Toggl _ => 1 | Trang _ _ => 2 | Clone _ _ => 3 | Kvsto _ _ => 4 | Eref _ _ => 5 end.
  Inductive blocks1 (ops : list op1) : list N -> str -> Prop :=
  | blocks_end : blocks1 ops [] []
  | blocks_next k ks a b : block1 k (filter (fun o => kind_no o =? k) ops) a -> blocks1 ops ks b -> blocks1 ops (k :: ks) (a ++ b).

  Definition head1 (len group : N) : str := [len / 256; len mod 256; 1; 128; 0; 4; 210; 8; group].
  Inductive framed1 (group : N) : str -> str -> Prop :=
  | last_frame1 p : lenN p <= 65527 -> framed1 group p (head1 (lenN p) group ++ p)
  | more_frames1 p r : 65527 < lenN p -> framed1 group (skipn (N.to_nat 65527) p) r -> framed1 group p (head1 65527 group ++ p ++ r).

  Definition written1 (ops : list op1) (group : N) (blob : str) : Prop := exists p, blocks1 ops [1; 2; 3; 4; 5] p /\ framed1 group p blob.
End Message.

(** ** Proofs *)

Lemma two_is i : idx_ok i -> two i = idx_oct i.
Proof.
  intros H. unfold idx_ok in H. unfold two, idx_oct, o16. assert (Q : forall a b c d : N, a = c -> b = d -> [a; b] = [c; d]) by congruence. apply Q.
  - rewrite Z2N.inj_div by lia. reflexivity.
  - rewrite Z2N.inj_mod by lia. reflexivity.
Qed.

Lemma up_rev l : down l -> up (rev l).
Proof.
  induction 1 as [|x l H D IH]; [constructor|]. cbn [rev]. assert (Hr : forall y, In y (rev l) -> (y < x)%Z) by (intros y Hy; apply H; now apply in_rev).
  clear - IH Hr. induction IH as [|y r H U IH]; cbn [app]; [constructor; [contradiction|constructor]|].
  constructor; [|apply IH; intros z Hz; apply Hr; now right]. intros z Hz. apply in_app_or in Hz as [Hz|[<-|[]]]; [auto|apply Hr; now left].
Qed.
Lemma toggles_arranged toggl ot otr : NoDup toggl -> toggle_ranges toggl = (ot, otr) -> arranged toggl ot otr.
Proof.
  intros Hn E. destruct (toggle_runs toggl ot otr Hn E) as (_ & _ & R1 & R2). split; [exact R1|exact R2| |]; clear R1 R2;
    revert E; unfold toggle_ranges; destruct (merge_toggles (sort_z toggl) [] []) as [a b] eqn:E; intros H; injection H as <- <-.
  all: assert (L0 : looped [] [] (map flip []) 0) by
   (split; [| |reflexivity|constructor|constructor];
     [intros i; split; [contradiction|intros (H & _); contradiction]|intros l s; split; [contradiction|intros (H1 & H2 & _); apply (H2 l); lia]]).
  all: destruct (merge_looped (sort_z toggl) [] [] [] 0 (up_sorted toggl Hn) ltac:(intros i j []) L0 _ _ E) as (n & [_ _ _ L3 L4]).
  - now apply up_rev.
  - rewrite map_rev. apply up_rev. rewrite map_map in L4. exact L4.
Qed.
Lemma up_eq a : up a -> forall b, up b -> (forall x, In x a <-> In x b) -> a = b.
Proof.
  induction 1 as [|x a H U IH]; intros b Ub E.
  - destruct b as [|y b]; [reflexivity|]. exfalso. apply (proj2 (E y)). now left.
  - destruct Ub as [|y b Hb Ub]; [exfalso; apply (proj1 (E x)); now left|].
    assert (x = y).
    { destruct (proj1 (E x) (or_introl eq_refl)) as [->|X]; [reflexivity|]. destruct (proj2 (E y) (or_introl eq_refl)) as [->|Y]; [reflexivity|].
      apply Hb in X. apply H in Y. lia. }
    subst y. f_equal. apply IH; [exact Ub|]. intros z. split; intros Hz.
    + destruct (proj1 (E z) (or_intror Hz)) as [->|X]; [|exact X]. apply H in Hz. lia.
    + destruct (proj2 (E z) (or_intror Hz)) as [->|X]; [|exact X]. apply Hb in Hz. lia.
Qed.
Lemma map_snd_eq (a : list (Z * Z)) : forall b, map snd a = map snd b -> (forall s s' e, In (s, e) a -> In (s', e) b -> s = s') -> a = b.
Proof.
  induction a as [|[s e] a IH]; intros [|[s' e'] b] E H; cbn [map snd] in E; try discriminate; [reflexivity|]. injection E as -> E. f_equal.
  - f_equal. apply (H s s' e'); now left.
  - apply IH; [exact E|]. intros u u' z Hu Hv. apply (H u u' z); now right.
Qed.
Lemma arranged_det t s r s' r' : arranged t s r -> arranged t s' r' -> s = s' /\ r = r'.
Proof.
  intros [A1 A2 A3 A4] [B1 B2 B3 B4]. split; [apply up_eq; [exact A3|exact B3|]; intros x; now rewrite A1, B1|].
  assert (Er : forall x, In x r <-> In x r') by (intros [a b]; now rewrite A2, B2). apply map_snd_eq.
  - apply up_eq; [exact A4|exact B4|]. intros x. rewrite !in_map_iff. split; intros (y & E & Hy); exists y; (split; [exact E|now apply Er]).
  - intros u u' e Hu Hv. apply A2 in Hu. apply B2 in Hv. exact (run_unique _ _ _ _ Hu Hv).
Qed.

Section Written.
  Context (h : huffman) (ws : list (list bool)) (G : good h ws) (He : 256 < lenN ws).

  Lemma text1_is s : text1 h s (soct ws s).
  Proof.
    split; [apply soct_bytes|]. exists (pad_len (length (raw_bits ws s))). split; [apply pad_len_ok|].
    rewrite soct_bits. unfold sbits. rewrite (words_are h ws G s). rewrite Nat.add_0_l. reflexivity.
  Qed.
  Lemma operation1_is o : op1_ok o -> operation1 h o (op_oct ws o).
  Proof.
    destruct o as [i|i s|i v|k v|k v]; cbn [op1_ok op_oct]; intros H.
    - rewrite <- two_is by exact H. constructor.
    - destruct H as [H1 H2]. rewrite <- !two_is by assumption. constructor.
    - destruct H as [H1 _]. rewrite <- two_is by exact H1. constructor. apply text1_is.
    - constructor; apply text1_is.
    - constructor; apply text1_is.
  Qed.
  Lemma operations1_are ops : Forall op1_ok ops -> operations1 h ops (ops_oct ws ops).
  Proof. induction 1 as [|o r Ho HF IH]; [constructor|]. constructor; [now apply operation1_is|exact IH]. Qed.
  Lemma kind_no_of o : kind_no o = kind_val (kind_of o).
  Proof. now destruct o. Qed.
  Lemma block1_is c : chunk_ok c -> block1 h (kind_val (fst c)) (snd c) (chunk_oct ws c).
  Proof.
    intros Hc. apply chunk_all_ok in Hc. unfold chunk_oct. destruct (snd c) as [|o r] eqn:E; [constructor|].
    replace (N.min 256 (lenN (o :: r)) - 1) with (N.min 255 (lenN (o :: r) - 1)) by lia. apply a_block; [discriminate|now apply operations1_are].
  Qed.
  Lemma filter_all {A} (f : A -> bool) l : (forall x, In x l -> f x = true) -> filter f l = l.
  Proof. induction l as [|x l IH]; intros H; cbn [filter]; [reflexivity|]. rewrite (H x (or_introl eq_refl)). f_equal. apply IH. intros y Hy. apply H. now right. Qed.
  Lemma filter_none {A} (f : A -> bool) l : (forall x, In x l -> f x = false) -> filter f l = [].
  Proof. induction l as [|x l IH]; intros H; cbn [filter]; [reflexivity|]. rewrite (H x (or_introl eq_refl)). apply IH. intros y Hy. apply H. now right. Qed.

  Lemma blocks1_are i : instr_ok i -> blocks1 h (flat_map snd (wire_kinds i)) [1; 2; 3; 4; 5] (payload1 ws i).
  Proof.
    intros Hi. pose proof (wire_kinds_ok i Hi) as F. unfold payload1, chunks_oct.
    assert (Ek : map (fun c => kind_val (fst c)) (wire_kinds i) = [1; 2; 3; 4; 5]) by (unfold wire_kinds; now destruct (toggle_ranges (i_toggl i))).
    rewrite <- Ek.
    assert (Nk : NoDup (map (fun c => kind_val (fst c)) (wire_kinds i))) by (rewrite Ek; repeat constructor; cbn; intuition discriminate).
    clear Ek. set (cs := wire_kinds i) in *. clearbody cs. clear i Hi.
    assert (K : forall pre cs : list (kind * list op1), Forall chunk_ok (pre ++ cs) -> NoDup (map (fun c => kind_val (fst c)) (pre ++ cs)) ->
      blocks1 h (flat_map snd (pre ++ cs)) (map (fun c => kind_val (fst c)) cs) (flat_map (chunk_oct ws) cs)); [|exact (K [] cs F Nk)].
    clear cs F Nk. intros pre cs. revert pre. induction cs as [|c cs IH]; intros pre F Nk; [constructor|]. cbn [map flat_map]. constructor.
    - assert (Ef : filter (fun o => kind_no o =? kind_val (fst c)) (flat_map snd (pre ++ c :: cs)) = snd c).
      { rewrite flat_map_app. cbn [flat_map]. rewrite !filter_app.
        assert (Z : forall l : list (kind * list op1), Forall chunk_ok l -> ~ In (kind_val (fst c)) (map (fun c => kind_val (fst c)) l) -> filter (fun o => kind_no o =? kind_val (fst c)) (flat_map snd l) = []).
        { intros l Hl Hn. apply filter_none. intros o Ho. apply in_flat_map in Ho as (c' & Hc' & Ho). rewrite Forall_forall in Hl. pose proof (Hl c' Hc') as Hk. unfold chunk_ok in Hk. rewrite Forall_forall in Hk.
          destruct (Hk o Ho) as [Hk' _]. rewrite kind_no_of, Hk'. apply N.eqb_neq. intros C. apply Hn. rewrite <- C. apply in_map_iff. now exists c'. }
        rewrite map_app in Nk. cbn [map] in Nk. apply NoDup_remove_2 in Nk. rewrite in_app_iff in Nk. apply Forall_app in F as [F1 F2]. inversion F2 as [|? ? F3 F4]; subst.
        rewrite (Z pre F1), (Z cs F4) by tauto. rewrite app_nil_r. cbn [app]. apply filter_all. intros o Ho. unfold chunk_ok in F3. rewrite Forall_forall in F3. destruct (F3 o Ho) as [Hk _].
        rewrite kind_no_of, Hk. apply N.eqb_refl. }
      rewrite Ef. apply block1_is. apply Forall_app in F as [_ F2]. now inversion F2.
    - specialize (IH (pre ++ [c])). rewrite <- !app_assoc in IH. cbn [app] in IH. now apply IH.
  Qed.

  Lemma frames1_are gid : gid < 256 -> forall fuel p b A R, is_bytes p -> (length p < fuel)%nat -> rd b A R ->
    exists b' y, frames1 fuel b p (lenN p) 65527 1234 gid = Ok b' /\ framed1 gid p y /\ is_bytes y /\ rd b' A (R ++ bits_of_bytes y).
  Proof.
    intros Hg. induction fuel as [|f IH]; intros p b A R Hp Hf Hb; [lia|]. cbn [frames1]. cbv zeta.
    set (c := N.min (lenN p) 65527). destruct (N.leb_spec c (lenN p)) as [_|L]; [|unfold c in L; lia].
    assert (Hc : c < 65536) by (unfold c; lia).
    destruct (boilerplate1_ok c 1 1234 gid 8 b A R Hc ltac:(lia) sid1_ok Hg ltac:(lia) Hb) as (b1 & E1 & B1). rewrite E1. cbn [bind].
    destruct (store_octets b1 A _ p (N.to_nat c) B1 Hp) as (b2 & E2 & B2). rewrite E2. cbn [bind].
    rewrite <- app_assoc, <- bob_app in B2.
    assert (Eh : hdr1 c 1 1234 gid 8 = head1 c gid) by reflexivity. rewrite Eh in B2.
    assert (Hh : is_bytes (head1 c gid)) by (rewrite <- Eh; apply hdr1_bytes; try reflexivity; assumption).
    destruct (N.leb_spec (lenN p) 65527) as [L|L].
    - exists b2, (head1 (lenN p) gid ++ p). assert (Ec : c = lenN p) by (unfold c; lia). rewrite <- Ec. split; [reflexivity|]. split; [rewrite Ec; now apply last_frame1|].
      split; [apply Forall_app; now split|exact B2].
    - assert (Ec : c = 65527) by (unfold c; lia). rewrite Ec in *.
      assert (Hsk : is_bytes (skipn (N.to_nat 65527) p)).
      { unfold is_bytes in *. rewrite <- (firstn_skipn (N.to_nat 65527) p) in Hp. apply Forall_app in Hp. apply Hp. }
      assert (Hlen : lenN p - 65527 = lenN (skipn (N.to_nat 65527) p)) by (unfold lenN in *; rewrite skipn_length; clear -L; lia).
      rewrite Hlen. assert (Hsl : (length (skipn (N.to_nat 65527) p) < f)%nat).
      { clear IH. rewrite skipn_length. unfold lenN in *. clear -Hf L. lia. }
      destruct (IH (skipn (N.to_nat 65527) p) b2 A _ Hsk Hsl B2) as (b3 & y & E3 & Fy & Hy & B3).
      exists b3, (head1 65527 gid ++ p ++ y). split; [exact E3|]. split; [apply more_frames1; [exact L|exact Fy]|].
      split; [apply Forall_app; split; [exact Hh|apply Forall_app; split; [exact Hp|exact Hy]]|].
      rewrite <- app_assoc, <- bob_app, <- app_assoc in B3. exact B3.
  Qed.

  Lemma to_wire1_is i gid : instr_ok i -> gid < 256 -> exists blob, to_wire1 h i gid = Ok blob /\ written1 h (flat_map snd (wire_kinds i)) gid blob.
  Proof.
    intros Hi Hg. pose proof (payload1_bytes h ws G He i Hi) as Hp. unfold to_wire1, serialize1.
    destruct (output_kinds_ok h ws G He (wire_kinds i) (wire_kinds_ok i Hi) bb_new [] [] wr_new) as (pb & E0 & B0 & _). rewrite E0. cbn [bind].
    unfold bb_all. destruct (rd_out _ _ _ B0) as [Eo _]. rewrite Eo, (rd_num _ _ _ B0). cbn [app length Nat.add]. fold (payload1 ws i).
    rewrite bytes_of_bits_of_bytes by exact Hp. rewrite bits_of_bytes_length.
    destruct (boilerplate1_ok 0 0 0 gid 0 bb_new [] [] ltac:(reflexivity) ltac:(reflexivity) ltac:(reflexivity) Hg ltac:(reflexivity) wr_new) as (fb & Ef & Bf).
    rewrite Ef. cbn [bind]. cbv zeta.
    assert (Efb : bb_bytes fb = 9%nat).
    { unfold bb_bytes. rewrite (rd_num _ _ _ Bf). cbn [app]. rewrite bits_of_bytes_length, hdr1_length. reflexivity. }
    rewrite Efb. change (65536 - N.of_nat 9) with 65527.
    assert (El : N.of_nat ((8 * length (payload1 ws i) + 7) / 8) = lenN (payload1 ws i)).
    { unfold lenN. f_equal. symmetry. apply (Nat.div_unique _ 8 _ 7); lia. }
    rewrite El.
    destruct (frames1_are gid Hg (S (length (payload1 ws i))) (payload1 ws i) bb_new [] [] Hp ltac:(lia) wr_new) as (b & y & E & Fy & Hy & B).
    rewrite E. cbn [bind app] in *. destruct (copy_bits b _ B) as (d & Ed & Bd). rewrite Ed. cbn [bind fst]. eexists. split; [reflexivity|].
    destruct (rd_out _ _ _ Bd) as [-> _]. cbn [app]. rewrite (bytes_of_bits_of_bytes y Hy).
    exists (payload1 ws i). split; [now apply blocks1_are|exact Fy].
  Qed.
End Written.

Lemma text1_det h s a b : text1 h s a -> text1 h s b -> a = b.
Proof.
  intros (Ha & k & Hk & E) (Hb & k' & Hk' & E'). apply bits_of_bytes_inj; [exact Ha|exact Hb|]. rewrite E, E'. do 2 f_equal.
  assert (L : forall p k, bits_of_bytes p = flat_map (word_for h) (s ++ [256]) ++ repeat false k -> ((length (flat_map (word_for h) (s ++ [256]%N)) + k) mod 8 = 0)%nat).
  { intros p0 k0 E0. assert (E2 : length (bits_of_bytes p0) = (length (flat_map (word_for h) (s ++ [256]%N)) + k0)%nat) by (rewrite E0, app_length, repeat_length; reflexivity).
    rewrite bits_of_bytes_length in E2. rewrite <- E2. rewrite Nat.mul_comm. apply Nat.mod_mul. lia. }
  exact (zeros_det _ k k' Hk Hk' (L _ _ E) (L _ _ E')).
Qed.
Lemma operation1_det h o a b : operation1 h o a -> operation1 h o b -> a = b.
Proof.
  intros H H'. destruct H; inversion H'; subst;
    repeat match goal with X : text1 h ?s ?x, Y : text1 h ?s ?y |- _ => assert (x = y) by (exact (text1_det _ _ _ _ X Y)); subst; clear Y end; reflexivity.
Qed.
Lemma operations1_det h ops a : operations1 h ops a -> forall b, operations1 h ops b -> a = b.
Proof.
  induction 1 as [|o ops x y I H IH]; intros b Hb; inversion Hb as [|? ? x' y' I' H']; subst; [reflexivity|].
  assert (x' = x) by (exact (operation1_det _ _ _ _ I' I)). subst. now rewrite (IH _ H').
Qed.
Lemma block1_det h k ops a b : block1 h k ops a -> block1 h k ops b -> a = b.
Proof. intros H H'. destruct H as [|ops p N' H]; inversion H' as [|? ? N'' H'']; subst; try congruence. now rewrite (operations1_det _ _ _ H _ H''). Qed.
Lemma blocks1_det h ops ks a : blocks1 h ops ks a -> forall b, blocks1 h ops ks b -> a = b.
Proof.
  induction 1 as [|k ks x y I H IH]; intros b Hb; inversion Hb as [|? ? x' y' I' H']; subst; [reflexivity|].
  assert (x' = x) by (exact (block1_det _ _ _ _ _ I' I)). subst. now rewrite (IH _ H').
Qed.
Lemma framed1_det g p a : framed1 g p a -> forall b, framed1 g p b -> a = b.
Proof.
  induction 1 as [p L|p r L F IH]; intros b Hb; inversion Hb as [p' L'|p' r' L' F']; subst.
  - reflexivity.
  - exfalso. clear -L L'. lia.
  - exfalso. clear -L L'. lia.
  - rewrite (IH _ F'). reflexivity.
Qed.
Lemma written1_det h ops g a b : written1 h ops g a -> written1 h ops g b -> a = b.
Proof. intros (p & Bp & F) (q & Bq & F'). assert (p = q) by (exact (blocks1_det _ _ _ _ Bp _ Bq)). subst q. exact (framed1_det _ _ _ F _ F'). Qed.

(** ** C119 *)

(** The octets of a message are those of the description, and no others are. *)
Theorem C119_octets : forall h i gid blob, coder1 h -> fits i -> NoDup (i_toggl i) -> gid < 256 ->
  (to_wire1 h i gid = Ok blob <-> exists singles ranges, arranged (i_toggl i) singles ranges /\ written1 h (listing i singles ranges) gid blob).
Proof.
  intros h i gid blob (table & Eh & Ht) Hi Hn Hg. destruct (coder_good table h Eh Ht) as (ws & G & He).
  destruct (to_wire1_is h ws G He i gid (fits_ok i Hi) Hg) as (b & E & W). rewrite listing_kinds in W.
  destruct (toggle_ranges (i_toggl i)) as [ot otr] eqn:Et. cbn [fst snd] in W. pose proof (toggles_arranged _ _ _ Hn Et) as Ar. split.
  - intros E'. assert (b = blob) by congruence. subst b. exists ot, otr. now split.
  - intros (s & r & Ar' & W'). destruct (arranged_det _ _ _ _ _ Ar Ar') as [<- <-]. rewrite E. f_equal. exact (written1_det _ _ _ _ _ W W').
Qed.
Print Assumptions C119_octets.

Section Session.
  Context (dk : str) (iter : list gop -> list N).

  Lemma made_fits o c d gid c' i : inv1 dk c -> order1_ok o -> headers_bytes d -> (forall v, ~ In (dk, v) d) ->
    make_operations1 dk iter o c d gid = Ok (c', i) -> NoDup (i_toggl i) /\ fits i.
  Proof.
    intros I Ho Hby Hdk Emk. rewrite <- make1_find in Emk. set (c0 := mk_code1 (d_store c) (find_or_make (d_groups c) gid)) in *.
    pose proof (inv1_find dk c gid I) as I0. fold c0 in I0. destruct (find_or_make_get (d_groups c) gid) as (z & Hz). assert (Hg : gget (d_groups c0) gid = Some z) by exact Hz.
    destruct (make1_ok dk iter o c0 d gid z I0 Hg Ho Hdk) as (i' & on & later & c1 & PL & Ed & I1 & SB & G1 & Em). rewrite Em in Emk.
    destruct (store_pairs dk gid c1 later) as [cc|] eqn:E2; cbn [bind] in Emk; [|discriminate]. destruct (adjust1 iter cc gid) as [c3|] eqn:E3; cbn [bind] in Emk; [|discriminate].
    assert (i' = i) by congruence. subst i'. split; [exact (pl_nodup _ _ _ _ _ _ PL)|exact (plan_fits dk c0 z d i on later I0 PL Hby)].
  Qed.
End Session.

(** In a session: the octets of every message, however long, are those of the instructions
    that the table, the names learnt and the header group call for (C99). *)
Theorem C119_session : forall dk iter h maxb maxv kind c d, visits iter -> coder1 h -> session1 dk iter h maxb maxv kind c d ->
  exists names, hears dk iter h maxb maxv d names /\
  ((Z.of_nat (length names) <= 65534)%Z -> forall m c' blob, message1_ok dk m ->
    compress1 dk iter h (m1_sender m) c (m1_headers m) (m1_group m) = Ok (c', blob) ->
    exists ops, written1 h ops (m1_group m) blob /\ chosen1 names c (m1_group m) (m1_headers m) ops).
Proof.
  intros dk iter h maxb maxv kind c d Hi Hh S. destruct (C93_sent dk iter h maxb maxv kind c d Hi Hh S) as (names & N & _). exists names. split; [exact N|].
  intros L m c' blob Hm E. destruct (session1_inv _ _ _ _ _ _ _ _ Hi Hh S) as (-> & I & B). pose proof (hears_order _ _ _ _ _ _ _ N L) as Ord.
  pose proof (session_stored dk iter Hi h maxb maxv kind c c Hh S) as St. destruct Hm as [M1 M2 _ M4 M5 M6].
  unfold compress1 in E. destruct (make_operations1 _ _ _ _ _ _) as [[c1 i]|] eqn:Em; cbn [bind] in E; [|discriminate].
  destruct (to_wire1 h i (m1_group m)) as [b|] eqn:Ew; cbn [bind] in E; [|discriminate]. assert (b = blob) by congruence. subst b.
  destruct (made_fits dk iter _ _ _ _ _ _ I M5 M1 M2 Em) as [Nt Hf]. exists (flat_map snd (wire_kinds i)). split.
  - apply (C119_octets h i _ blob Hh Hf Nt M4) in Ew as (s & r & Ar & W). rewrite listing_kinds. destruct (toggle_ranges (i_toggl i)) as [ot otr] eqn:Et. cbn [fst snd].
    destruct (arranged_det _ _ _ _ _ (toggles_arranged _ _ _ Nt Et) Ar) as [-> ->]. exact W.
  - exact (make_chosen1 dk iter names (m1_sender m) c (m1_headers m) (m1_group m) c1 i I St Ord M5 M2 Nt Em).
Qed.
Print Assumptions C119_session.

(** Four indices, three of them neighbours, a new value for a known name, a new pair and a
    path, with words of eight bits. *)
Example C119_case : exists h, d1_huffman flat_table = Ok h /\
  word_for h 97 = bits_of 8 0x5f /\ word_for h 256 = bits_of 8 0xfe /\
  to_wire1 h (mk_instr [301; 7; 300; 302]%Z [(6%Z, lit "a")] [(lit "a", [])] [([], lit "aa")]) 7 =
   Ok ([0; 27; 1; 128; 0; 4; 210; 8; 7] ++
       [1; 0; 0; 7] ++                          (* one toggle *)
       [2; 0; 1; 46; 1; 44] ++                  (* one range, up to 302, from 300 *)
       [3; 0; 0; 6; 0x5f; 0xfe] ++              (* a new value for the name 6 *)
       [4; 0; 0x5f; 0xfe; 0xfe] ++              (* a new pair *)
       [5; 0; 0xfe; 0x5f; 0x5f; 0xfe]) /\
  arranged [301; 7; 300; 302]%Z [7]%Z [(300, 302)]%Z.
Proof.
  eexists. split; [vm_compute; reflexivity|]. split; [vm_compute; reflexivity|]. split; [vm_compute; reflexivity|]. split; [vm_compute; reflexivity|].
  apply toggles_arranged; [|reflexivity]. repeat constructor; cbn; lia.
Qed.
