(** * Property C120: delta_bohe's messages, octet by octet. *)
From Coq Require Import String List NArith ZArith Bool Arith Lia ZifyN ZifyNat Permutation Sorted.
From Verif Require Import PyBase PyStr NBits Bits BB_Model BB_Spec BB_Proofs BB_Read D2Huff_Model D2Huff_Proofs D2Wire_Proofs D2Wire_Frame Prop_D2HuffOpt
  D1Huff_Model D1Huff_Proofs Prop_D1Huff D1Wire_Model D1Wire_Proofs D1Wire_Frame Prop_D1Wire Prop_D2Ranges Prop_D1Bits Small_Model Bohe_Model Prop_Bohe DB_Model DB_Proofs DB_Ops DB_Session DB_Wire DB_Text Prop_DB Prop_DB2.
Import ListNotations.
Open Scope N_scope.
Open Scope py_scope.

(** ** Specification *)

(** *** Octets *)

Section Message.
  Context (h : huffman).

  (** A text as code words, as for delta (C119), or as it is. *)
  Definition plain_or_coded (coded : bool) (s p : str) : Prop := if coded then text1 h s p else p = s.
  Inductive operationb : wop -> str -> Prop :=
  | puts_toggl i : operationb (WToggl i) (two i)
  | puts_trang i s : operationb (WTrang i s) (two i ++ two s)
  | puts_clone i v f b : plain_or_coded f v b -> operationb (WClone i v f) (two i ++ b)
  | puts_kvsto k v f a b : plain_or_coded f k a -> plain_or_coded f v b -> operationb (WKvsto k v f) (a ++ b).
  Inductive operationsb : list wop -> str -> Prop :=
  | puts_none : operationsb [] []
  | puts_more o ops a b : operationb o a -> operationsb ops b -> operationsb (o :: ops) (a ++ b).
  Inductive blockb (k : N) : list wop -> str -> Prop :=
  | no_blockb : blockb k [] []
  | a_blockb ops p : ops <> [] -> operationsb ops p -> blockb k ops ([k; N.min 255 (lenN ops - 1)] ++ p).
  Inductive blocksb : list (N * list wop) -> str -> Prop :=
  | blocksb_end : blocksb [] []
  | blocksb_next k ops r a b : blockb k ops a -> blocksb r b -> blocksb ((k, ops) :: r) (a ++ b).

  Definition headb (len : N) : str := [len / 256; len mod 256; 1; 128; 0; 4; 210; 8].
  Inductive framedb : str -> str -> Prop :=
  | last_frameb p : lenN p <= 65528 -> framedb p (headb (lenN p) ++ p)
  | more_framesb p r : 65528 < lenN p -> framedb (skipn (N.to_nat 65528) p) r -> framedb p (headb 65528 ++ p ++ r).

  (** Single toggles, ranges, values for known names and new pairs. *)
  Definition writtenb (singles : list Z) (ranges : list (Z * Z)) (values : list (Z * str * bool)) (pairs : list (str * str * bool)) (blob : str) : Prop :=
    exists p, blocksb [(1, map WToggl singles); (2, map (fun r => WTrang (snd r) (fst r)) ranges); (3, map (fun c => WClone (fst (fst c)) (snd (fst c)) (snd c)) values);
      (4, map (fun c => WKvsto (fst (fst c)) (snd (fst c)) (snd c)) pairs)] p /\ framedb p blob.
End Message.

(** *** Instructions *)

(** Alphabetical order. *)
Inductive lex : str -> str -> Prop :=
| lex_nil s : lex [] s
| lex_lt x y a b : x < y -> lex (x :: a) (y :: b)
| lex_eq x a b : lex a b -> lex (x :: a) (x :: b).
(** The pairs of a message in the order in which they are dealt with: the headers as they
    are iterated, the crumbs of a cookie in alphabetical order. *)
Inductive lists (L : library) : message -> list (str * str) -> Prop :=
| lists_nil : lists L [] []
| lists_cons k v vs ws m ps : Permutation vs (parts k v) -> StronglySorted lex vs -> Forall2 (fun x w => encoded L k x = Ok w) vs ws -> lists L m ps ->
    lists L ((k, v) :: m) (map (pair k) ws ++ ps).

(** An entry of the table, with its index, that is or is not in force. *)
Definition holds (c : codec) (i : Z) (p : str * str) (in_force : bool) : Prop :=
  exists e, In e (entries (c_table c)) /\ e_idx e = i /\ (e_key e, e_val e) = p /\ grouped e = in_force.
Definition not_held (c : codec) (p : str * str) : Prop := forall i f, ~ holds c i p f.
Definition known (c : codec) (k : str) (n : Z) : Prop := In (k, n) (b_keys (c_table c)).
Definition unknown (c : codec) (k : str) : Prop := forall n, ~ known c k n.
(** Values with an encoder of their own are sent as they are. *)
Definition coded (L : library) (k : str) (f : bool) : Prop := f = true <-> encoder L k = None.

Section Chosen.
  Context (L : library) (c : codec).
  Inductive new_values : list (str * str) -> list (Z * str * bool) -> Prop :=
  | nv_end : new_values [] []
  | nv_take k v n f ps r : not_held c (k, v) -> known c k n -> coded L k f -> new_values ps r -> new_values ((k, v) :: ps) ((n, v, f) :: r)
  | nv_skip k v ps r : (~ not_held c (k, v) \/ unknown c k) -> new_values ps r -> new_values ((k, v) :: ps) r.
  Inductive new_pairs : list (str * str) -> list (str * str * bool) -> Prop :=
  | np_end : new_pairs [] []
  | np_take k v f ps r : not_held c (k, v) -> unknown c k -> coded L k f -> new_pairs ps r -> new_pairs ((k, v) :: ps) ((k, v, f) :: r)
  | np_skip k v ps r : (~ not_held c (k, v) \/ ~ unknown c k) -> new_pairs ps r -> new_pairs ((k, v) :: ps) r.
  (** An entry in force that is not in the message, or one in the message that is not in force. *)
  Definition changes (ps : list (str * str)) (i : Z) : Prop :=
    exists p, (holds c i p true /\ ~ In p ps) \/ (holds c i p false /\ In p ps).
End Chosen.

(** ** Proofs *)

Section Written.
  Context (h : huffman) (ws : list (list bool)) (G : good h ws) (He : 256 < lenN ws).

  Lemma plain_or_coded_is f s : plain_or_coded h f s (str_oct ws f s).
  Proof. destruct f; cbn [plain_or_coded str_oct]; [exact (text1_is h ws G s)|reflexivity]. Qed.
  Lemma operationb_is o : wop_ok o -> operationb h o (wop_oct ws o).
  Proof.
    destruct o as [i|i s|i v f|k v f]; cbn [wop_ok wop_oct]; intros H.
    - rewrite <- two_is by exact H. constructor.
    - destruct H as [H1 H2]. rewrite <- !two_is by assumption. constructor.
    - destruct H as [H1 _]. rewrite <- two_is by exact H1. constructor. apply plain_or_coded_is.
    - constructor; apply plain_or_coded_is.
  Qed.
  Lemma operationsb_are ops : Forall wop_ok ops -> operationsb h ops (flat_map (wop_oct ws) ops).
  Proof. induction 1 as [|o r Ho HF IH]; [constructor|]. cbn [flat_map]. constructor; [now apply operationb_is|exact IH]. Qed.
  Lemma blockb_is k ops : Forall wop_ok ops -> blockb h (kind_val k) ops (kind_oct ws (k, ops)).
  Proof.
    intros Hc. unfold kind_oct. cbn [fst snd]. destruct ops as [|o r] eqn:E; [constructor|].
    replace (N.min 256 (lenN (o :: r)) - 1) with (N.min 255 (lenN (o :: r) - 1)) by lia. apply a_blockb; [discriminate|]. now apply operationsb_are.
  Qed.
  Lemma blocksb_are cs : Forall (fun c => Forall wop_ok (snd c)) cs -> blocksb h (map (fun c => (kind_val (fst c), snd c)) cs) (flat_map (kind_oct ws) cs).
  Proof. induction 1 as [|[k ops] r Ho HF IH]; [constructor|]. cbn [flat_map map fst snd]. constructor; [now apply blockb_is|exact IH]. Qed.

  Lemma put_frames_are : forall fuel p b A R, is_bytes p -> (length p < fuel)%nat -> rd b A R ->
    exists b' y, put_frames fuel b p (lenN p) 65528 = Ok b' /\ framedb p y /\ is_bytes y /\ rd b' A (R ++ bits_of_bytes y).
  Proof.
    induction fuel as [|f IH]; intros p b A R Hp Hf Hb; [lia|]. cbn [put_frames]. cbv zeta.
    set (c := N.min (lenN p) 65528). destruct (N.leb_spec c (lenN p)) as [_|L]; [|unfold c in L; lia].
    assert (Hc : c < 65536) by (unfold c; lia).
    destruct (frame_head_ok c 1 1234 8 b A R Hc ltac:(lia) sid1_ok ltac:(lia) Hb) as (b1 & E1 & B1). rewrite E1. cbn [bind].
    destruct (store_octets b1 A _ p (N.to_nat c) B1 Hp) as (b2 & E2 & B2). rewrite E2. cbn [bind].
    rewrite <- app_assoc, <- bob_app in B2.
    assert (Eh : head c 1 1234 8 = headb c) by reflexivity. rewrite Eh in B2.
    assert (Hh : is_bytes (headb c)) by (rewrite <- Eh; apply head_bytes; try reflexivity; assumption).
    destruct (N.leb_spec (lenN p) 65528) as [L|L].
    - exists b2, (headb (lenN p) ++ p). assert (Ec : c = lenN p) by (unfold c; lia). rewrite <- Ec. split; [reflexivity|]. split; [rewrite Ec; now apply last_frameb|].
      split; [apply Forall_app; now split|exact B2].
    - assert (Ec : c = 65528) by (unfold c; lia). rewrite Ec in *.
      assert (Hsk : is_bytes (skipn (N.to_nat 65528) p)).
      { unfold is_bytes in *. rewrite <- (firstn_skipn (N.to_nat 65528) p) in Hp. apply Forall_app in Hp. apply Hp. }
      assert (Hlen : lenN p - 65528 = lenN (skipn (N.to_nat 65528) p)) by (unfold lenN in *; rewrite skipn_length; clear -L; lia).
      rewrite Hlen. assert (Hsl : (length (skipn (N.to_nat 65528) p) < f)%nat).
      { clear IH. rewrite skipn_length. unfold lenN in *. clear -Hf L. lia. }
      destruct (IH (skipn (N.to_nat 65528) p) b2 A _ Hsk Hsl B2) as (b3 & y & E3 & Fy & Hy & B3).
      exists b3, (headb 65528 ++ p ++ y). split; [exact E3|]. split; [apply more_framesb; [exact L|exact Fy]|].
      split; [apply Forall_app; split; [exact Hh|apply Forall_app; split; [exact Hp|exact Hy]]|].
      rewrite <- app_assoc, <- bob_app, <- app_assoc in B3. exact B3.
  Qed.

  Lemma real_ops_is i : instrs_ok i -> exists blob, real_ops h i = Ok blob /\
    writtenb h (fst (toggle_ranges (n_toggl i))) (snd (toggle_ranges (n_toggl i))) (n_clone i) (n_kvsto i) blob.
  Proof.
    intros Hi. unfold real_ops, serialize. rewrite put_instrs_kinds.
    destruct (put_kinds_ok h ws G He (kinds i) (kinds_ok i Hi) bb_new [] [] wr_new) as (pb & E0 & B0 & Hp). rewrite E0. cbn [bind]. fold (payload ws i) in *.
    unfold bb_all. destruct (rd_out _ _ _ B0) as [Eo _]. rewrite Eo, (rd_num _ _ _ B0). cbn [app length Nat.add].
    rewrite bytes_of_bits_of_bytes by exact Hp. rewrite bits_of_bytes_length.
    destruct (frame_head_ok 0 0 0 0 bb_new [] [] ltac:(reflexivity) ltac:(reflexivity) ltac:(reflexivity) ltac:(reflexivity) wr_new) as (fb & Ef & Bf).
    rewrite Ef. cbn [bind]. cbv zeta.
    assert (Efb : bb_bytes fb = 8%nat).
    { unfold bb_bytes. rewrite (rd_num _ _ _ Bf). cbn [app]. rewrite bits_of_bytes_length, head_length. reflexivity. }
    rewrite Efb. change (65536 - N.of_nat 8) with 65528.
    assert (El : N.of_nat ((8 * length (payload ws i) + 7) / 8) = lenN (payload ws i)).
    { unfold lenN. f_equal. symmetry. apply (Nat.div_unique _ 8 _ 7); lia. }
    rewrite El.
    destruct (put_frames_are (S (length (payload ws i))) (payload ws i) bb_new [] [] Hp ltac:(lia) wr_new) as (b & y & E & Fy & Hy & B).
    rewrite E. cbn [bind app] in *. destruct (copy_bits b _ B) as (d & Ed & Bd). rewrite Ed. cbn [bind fst]. eexists. split; [reflexivity|].
    destruct (rd_out _ _ _ Bd) as [-> _]. cbn [app]. rewrite (bytes_of_bits_of_bytes y Hy).
    exists (payload ws i). split; [|exact Fy]. pose proof (blocksb_are (kinds i) (kinds_ok i Hi)) as X. unfold payload. revert X. unfold kinds.
    destruct (toggle_ranges (n_toggl i)) as [ot otr]. cbn [map fst snd kind_val].
    rewrite (map_ext (fun '(s, e) => WTrang e s) (fun r => WTrang (snd r) (fst r)) ltac:(now intros [s e])).
    rewrite (map_ext (fun '(n, v, f) => WClone n v f) (fun c => WClone (fst (fst c)) (snd (fst c)) (snd c)) ltac:(now intros [[n v] f])).
    rewrite (map_ext (fun '(k, v, f) => WKvsto k v f) (fun c => WKvsto (fst (fst c)) (snd (fst c)) (snd c)) ltac:(now intros [[k v] f])). exact (fun X => X).
  Qed.
End Written.

Lemma plain_or_coded_det h f s a b : plain_or_coded h f s a -> plain_or_coded h f s b -> a = b.
Proof. destruct f; cbn [plain_or_coded]; [apply text1_det|congruence]. Qed.
Lemma operationb_det h o a b : operationb h o a -> operationb h o b -> a = b.
Proof.
  intros H H'. destruct H; inversion H'; subst;
    repeat match goal with X : plain_or_coded h ?f ?s ?x, Y : plain_or_coded h ?f ?s ?y |- _ => assert (x = y) by (exact (plain_or_coded_det _ _ _ _ _ X Y)); subst; clear Y end; reflexivity.
Qed.
Lemma operationsb_det h ops a : operationsb h ops a -> forall b, operationsb h ops b -> a = b.
Proof.
  induction 1 as [|o ops x y I H IH]; intros b Hb; inversion Hb as [|? ? x' y' I' H']; subst; [reflexivity|].
  assert (x' = x) by (exact (operationb_det _ _ _ _ I' I)). subst. now rewrite (IH _ H').
Qed.
Lemma blockb_det h k ops a b : blockb h k ops a -> blockb h k ops b -> a = b.
Proof. intros H H'. destruct H as [|ops p N' H]; inversion H' as [|? ? N'' H'']; subst; try congruence. now rewrite (operationsb_det _ _ _ H _ H''). Qed.
Lemma blocksb_det h l a : blocksb h l a -> forall b, blocksb h l b -> a = b.
Proof.
  induction 1 as [|k ops r x y I H IH]; intros b Hb; inversion Hb as [|? ? ? x' y' I' H']; subst; [reflexivity|].
  assert (x' = x) by (exact (blockb_det _ _ _ _ _ I' I)). subst. now rewrite (IH _ H').
Qed.
Lemma framedb_det p a : framedb p a -> forall b, framedb p b -> a = b.
Proof.
  induction 1 as [p L|p r L F IH]; intros b Hb; inversion Hb as [p' L'|p' r' L' F']; subst.
  - reflexivity.
  - exfalso. clear -L L'. lia.
  - exfalso. clear -L L'. lia.
  - rewrite (IH _ F'). reflexivity.
Qed.
Lemma writtenb_det h s r v k a b : writtenb h s r v k a -> writtenb h s r v k b -> a = b.
Proof. intros (p & Bp & F) (q & Bq & F'). assert (p = q) by (exact (blocksb_det _ _ _ Bp _ Bq)). subst q. exact (framedb_det _ _ F _ F'). Qed.

(** ** C120 *)

(** The octets of a message are those of the description, and no others are. *)
Theorem C120_octets : forall is_request h i blob, db_coder is_request = Ok h -> instrs_ok i -> NoDup (n_toggl i) ->
  (real_ops h i = Ok blob <-> exists singles ranges, arranged (n_toggl i) singles ranges /\ writtenb h singles ranges (n_clone i) (n_kvsto i) blob).
Proof.
  intros is_request h i blob Eh Hi Hn. destruct (coder_words is_request h Eh) as (ws & G & He).
  destruct (real_ops_is h ws G He i Hi) as (b & E & W). destruct (toggle_ranges (n_toggl i)) as [ot otr] eqn:Et. cbn [fst snd] in W. pose proof (toggles_arranged _ _ _ Hn Et) as Ar. split.
  - intros E'. assert (b = blob) by congruence. subst b. exists ot, otr. now split.
  - intros (s & r & Ar' & W'). destruct (arranged_det _ _ _ _ _ Ar Ar') as [<- <-]. rewrite E. f_equal. exact (writtenb_det _ _ _ _ _ _ _ W W').
Qed.
Print Assumptions C120_octets.

Lemma leb_lex a : forall b, str_leb a b = true -> lex a b.
Proof.
  induction a as [|x a IH]; intros [|y b] H; cbn [str_leb] in H; try discriminate; [apply lex_nil|apply lex_nil|].
  destruct (N.eqb_spec x y) as [->|Ne]; [apply lex_eq; now apply IH|]. apply lex_lt. now apply N.ltb_lt.
Qed.
Lemma leb_total a : forall b, str_leb a b = false -> str_leb b a = true.
Proof.
  induction a as [|x a IH]; intros [|y b] H; cbn [str_leb] in *; try discriminate; [reflexivity|]. rewrite (N.eqb_sym y x).
  destruct (N.eqb_spec x y) as [->|Ne]; [now apply IH|]. apply N.ltb_ge in H. apply N.ltb_lt. lia.
Qed.
Lemma lex_trans a b c : lex a b -> lex b c -> lex a c.
Proof.
  intros H. revert c. induction H as [s|x y a b Hx|x a b H IH]; intros c Hc; [constructor| |].
  - inversion Hc as [|? z ? d Hz|? ? d Hd]; subst; apply lex_lt; lia.
  - inversion Hc as [|? z ? d Hz|? ? d Hd]; subst; [now apply lex_lt|apply lex_eq; now apply IH].
Qed.
Lemma sort_s_lex l : StronglySorted lex (sort_s l).
Proof.
  induction l as [|x l IH]; [constructor|]. cbn [sort_s fold_right]. fold (sort_s l). induction IH as [|y r S IH F]; cbn [insert_s]; [repeat constructor|].
  destruct (str_leb x y) eqn:E.
  - constructor; [now constructor|]. apply leb_lex in E. constructor; [exact E|]. eapply Forall_impl; [|exact F]. intros z. now apply lex_trans.
  - apply leb_total, leb_lex in E. constructor; [exact IH|]. rewrite Forall_forall in *. intros z Hz.
    assert (P : Permutation (insert_s x r) (x :: r)).
    { clear. induction r as [|y r IH]; [reflexivity|]. cbn [insert_s]. destruct (str_leb x y); [reflexivity|]. rewrite IH. apply perm_swap. }
    apply (Permutation_in _ P) in Hz. destruct Hz as [<-|Hz]; [exact E|now apply F].
Qed.
Lemma pieces_listed L m : forall ps, pieces L m = Ok ps -> lists L m ps.
Proof.
  induction m as [|[k v] m IH]; intros qs E; cbn [pieces] in E; [assert (qs = []) by congruence; subst; constructor|].
  destruct (map_res (bohe_encode L k) (values_of k v)) as [ws|] eqn:Ew; [|discriminate]. cbn [bind] in E. destruct (pieces L m) as [ps|]; [|discriminate]. cbn [bind] in E.
  assert (qs = map (pair k) ws ++ ps) by congruence. subst qs. apply (lists_cons L k v (values_of k v) ws); [apply values_parts| | |now apply IH].
  - unfold values_of, crumbs. destruct (str_eqb k (lit "cookie")); [apply sort_s_lex|repeat constructor].
  - clear - Ew. revert ws Ew. induction (values_of k v) as [|x l IH]; intros ws E; cbn [map_res] in E; [assert (ws = []) by congruence; subst; constructor|].
    destruct (bohe_encode L k x) as [w|] eqn:Ex; [|discriminate]. cbn [bind] in E. destruct (map_res (bohe_encode L k) l) as [r|]; [|discriminate]. cbn [bind] in E.
    assert (ws = w :: r) by congruence. subst. constructor; [exact Ex|now apply IH].
Qed.

Lemma held_find c p : find_entry (c_table c) (fst p) (snd p) = None <-> not_held c p.
Proof.
  rewrite find_entry_none. unfold not_held, holds. rewrite in_map_iff, <- surjective_pairing. split.
  - intros H i f (e & He & _ & Ep & _). apply H. exists e. now split.
  - intros H (e & Ep & He). apply (H (e_idx e) (grouped e)). exists e. repeat split; [exact He|exact Ep].
Qed.
Lemma key_index_known l k n : key_index l k = Some n -> In (k, n) l.
Proof. induction l as [|[k' i] r IH]; cbn [key_index]; [discriminate|]. destruct (str_eqb_spec k' k) as [->|]; intros E; [left; congruence|right; now apply IH]. Qed.
Lemma key_index_unknown l k : key_index l k = None <-> forall n, ~ In (k, n) l.
Proof.
  induction l as [|[k' i] r IH]; cbn [key_index]; [split; [intros _ n []|reflexivity]|]. destruct (str_eqb_spec k' k) as [->|Ne].
  - split; [discriminate|]. intros H. exfalso. apply (H i). now left.
  - rewrite IH. split; intros H n; [intros [C|C]; [congruence|exact (H n C)]|intros C; apply (H n); now right].
Qed.
Lemma huff_coded L k : coded L k (huff_of L k).
Proof. unfold coded, huff_of. destruct (encoder L k); split; congruence. Qed.
Lemma clones_chosen L c ps : new_values L c ps (flat_map (clone_of L (c_table c)) ps).
Proof.
  induction ps as [|[k v] ps IH]; [constructor|]. cbn [flat_map]. unfold clone_of at 1. cbn [fst snd]. pose proof (held_find c (k, v)) as Hf. cbn [fst snd] in Hf.
  destruct (find_entry (c_table c) k v) as [e|]; [apply nv_skip; [left; intros C; pose proof (proj2 Hf C); discriminate|exact IH]|].
  pose proof (key_index_unknown (b_keys (c_table c)) k) as Hu. destruct (key_index (b_keys (c_table c)) k) as [n|] eqn:En.
  - cbn [app]. apply nv_take; [exact (proj1 Hf eq_refl)|now apply key_index_known|apply huff_coded|exact IH].
  - apply nv_skip; [right; exact (proj1 Hu eq_refl)|exact IH].
Qed.
Lemma kvstos_chosen L c ps : new_pairs L c ps (flat_map (kvsto_of L (c_table c)) ps).
Proof.
  induction ps as [|[k v] ps IH]; [constructor|]. cbn [flat_map]. unfold kvsto_of at 1. cbn [fst snd]. pose proof (held_find c (k, v)) as Hf. cbn [fst snd] in Hf.
  destruct (find_entry (c_table c) k v) as [e|]; [apply np_skip; [left; intros C; pose proof (proj2 Hf C); discriminate|exact IH]|].
  pose proof (key_index_unknown (b_keys (c_table c)) k) as Hu. destruct (key_index (b_keys (c_table c)) k) as [n|] eqn:En.
  - apply np_skip; [right; intros C; pose proof (proj2 Hu C); discriminate|exact IH].
  - cbn [app]. apply np_take; [exact (proj1 Hf eq_refl)|exact (proj1 Hu eq_refl)|apply huff_coded|exact IH].
Qed.

(** In a session: the octets of a message are those of the instructions that the tables
    and the message call for. *)
Theorem C120_message : forall is_request L ord h s ms c m ps blob, processor is_request ord h s -> fst (run L ord h s ms) = Some c ->
  stands L m ps -> NoDup ps -> octet_pairs ps -> snd (db_compress L ord h (Some c) m) = Ok blob ->
  exists ps toggl singles ranges values pairs, lists L m ps /\ (forall i, In i toggl <-> changes c ps i) /\ arranged toggl singles ranges /\
    new_values L c ps values /\ new_pairs L c ps pairs /\ writtenb h singles ranges values pairs blob.
Proof.
  intros is_request L ord h s ms c m ps0 blob [Ec (ds & P & En) Ho] Er Hs Hn0 Hb0 E. destruct (db_new_ok ds P) as (c0 & E0 & F0). assert (s = Some c0) by congruence. subst s.
  assert (Hc : codec_ok c).
  { clear - Ho Er F0. pose proof (fr_ok _ _ F0) as Hc0. clear F0. revert c0 Hc0 Er. induction ms as [|m ms IH]; intros c0 W Er.
    - cbn in Er. assert (c = c0) by congruence. now subst.
    - cbn [run] in Er. unfold db_compress in Er. destruct (make_operations L ord c0 m) as [[c1 i]|] eqn:Em; [|rewrite run_dead in Er; discriminate].
      destruct (run L ord h (Some c1) ms) as [s2 os] eqn:Es. cbn [fst] in Er. destruct (call_ok L ord c0 m c1 i W Ho Em) as (W1 & _). apply (IH c1 W1). now rewrite Es. }
  destruct (coder_words is_request h Ec) as (ws & G & He).
  destruct (stands_pieces L m ps0 Hs) as (ps & Eq & Pq). assert (Hn : NoDup ps) by (eapply Permutation_NoDup; [symmetry; exact Pq|exact Hn0]).
  assert (Hb : octet_pairs ps) by (intros k v Hi; apply Hb0; eapply Permutation_in; [exact Pq|exact Hi]). clear ps0 Hs Hn0 Hb0 Pq.
  unfold db_compress in E. destruct (make_operations L ord c m) as [[c1 i]|] eqn:Em; [|discriminate]. cbn [snd] in E.
  destruct (call_ok L ord c m c1 i Hc Ho Em) as (_ & _ & qs & Eqs & Ei & _). assert (qs = ps) by congruence. subst qs i.
  pose proof Hc as (W & _ & Ha).
  assert (Hok : instrs_ok (instrs_of L ord (c_gen c) (c_table c) ps)).
  { apply (written_ok h ws G He _ blob); [| |exact E]; cbn [instrs_of n_clone n_kvsto]; apply Forall_forall.
    - intros x Hx. apply in_flat_map in Hx. destruct Hx as ([k v] & Hp & Hx). unfold clone_of in Hx. cbn [fst snd] in Hx. destruct (find_entry (c_table c) k v); [destruct Hx|].
      destruct (key_index (b_keys (c_table c)) k) as [n|]; [|destruct Hx]. destruct Hx as [<-|[]]. cbn [fst snd]. now apply (Hb k v).
    - intros x Hx. apply in_flat_map in Hx. destruct Hx as ([k v] & Hp & Hx). unfold kvsto_of in Hx. cbn [fst snd] in Hx. destruct (find_entry (c_table c) k v); [destruct Hx|].
      destruct (key_index (b_keys (c_table c)) k) as [n|]; [destruct Hx|]. destruct Hx as [<-|[]]. cbn [fst snd]. now apply (Hb k v). }
  assert (Nt : NoDup (n_toggl (instrs_of L ord (c_gen c) (c_table c) ps))).
  { cbn [instrs_of n_toggl]. apply NoDup_app_i.
    + apply NoDup_flat_map; [exact Hn| |].
      * intros p _. unfold toggl_of. destruct (find_entry (c_table c) (fst p) (snd p)) as [e|]; [destruct (grouped e)|]; repeat constructor. intros [].
      * intros p q i _ _ Hp Hq. apply toggl_of_in in Hp, Hq. destruct Hp as (e & He1 & _ & <- & _ & Ei), Hq as (e' & He' & _ & <- & _ & Ei').
        f_equal. apply (NoDup_map_inj e_idx _ _ _ (wf_idx _ W) He1 He'). congruence.
    + apply turn_offs_nodup; [exact Ho|]. rewrite each_entries, map_map. apply W.
    + intros i Hi Ht. apply toggl_in in Hi; [|exact W]. apply turn_offs_in in Ht; [|exact Ho|now apply aged_stale].
      destruct Hi as (e & He1 & _ & G1 & Ei), Ht as (e' & He' & G' & _ & Ei'). assert (e = e') by (apply (NoDup_map_inj e_idx _ _ _ (wf_idx _ W) He1 He'); congruence). congruence. }
  apply (C120_octets is_request h _ blob Ec Hok Nt) in E as (singles & ranges & Ar & Wr).
  exists ps, (n_toggl (instrs_of L ord (c_gen c) (c_table c) ps)), singles, ranges, (flat_map (clone_of L (c_table c)) ps), (flat_map (kvsto_of L (c_table c)) ps).
  split; [now apply pieces_listed|]. split; [|split; [exact Ar|split; [apply clones_chosen|split; [apply kvstos_chosen|exact Wr]]]].
  intros i. cbn [instrs_of n_toggl]. rewrite in_app_iff, toggl_in by exact W. rewrite turn_offs_in by (try exact Ho; now apply aged_stale). unfold changes, holds. split.
  - intros [(e & He1 & Hp & Gr & Ei)|(e & He1 & Gr & Hp & Ei)]; exists (pair_of e).
    + right. split; [exists e; repeat split; assumption|exact Hp].
    + left. split; [exists e; repeat split; assumption|]. intros C. apply has_in in C. congruence.
  - intros (p & [[(e & He1 & Ei & Ep & Gr) Hp]|[(e & He1 & Ei & Ep & Gr) Hp]]).
    + right. exists e. split; [exact He1|]. split; [exact Gr|]. split; [|exact Ei]. destruct (has ps e) eqn:C; [|reflexivity]. apply has_in in C. exfalso. apply Hp. rewrite <- Ep. exact C.
    + left. exists e. split; [exact He1|]. split; [rewrite <- Ep in Hp; exact Hp|]. now split.
Qed.
Print Assumptions C120_message.

(** Two messages of a session: the first sends three values for known names (the crumbs
    of the cookie in order, as they are) and a new pair, the second turns one entry off
    and sends a new value for the name that the first one made known. *)
Example C120_case : exists h s, processor true (fun l => l) h s /\
  snd (run some_library (fun l => l) h s [some_message; (lit "x-own", lit "8") :: tl some_message]) =
  [Ok ([0; 32; 1; 128; 0; 4; 210; 8] ++
       [3; 2] ++ [0; 4; 235; 151; 240; 42; 73; 212; 255; 50; 0] ++ [0; 6] ++ lit "c=1" ++ [0; 6] ++ lit "d=2" ++
       [4; 0; 84; 124; 61; 172; 128; 124; 128]);
   Ok ([0; 10; 1; 128; 0; 4; 210; 8] ++ [1; 0; 0; 68] ++ [3; 0; 0; 64; 188; 128])].
Proof.
  destruct C51_nontrivial as [(h & Eh) _]. destruct (db_new_ok default_dict (Permutation_refl _)) as (c & Ec & _). exists h, (Some c).
  split; [constructor; [exact Eh| |reflexivity]; exists default_dict; split; [reflexivity|exact Ec]|].
  assert (X : (let* s := db_new default_dict in let* h := d1_huffman d1_request_table in
    Ok (snd (run some_library (fun l => l) h s [some_message; (lit "x-own", lit "8") :: tl some_message]))) =
    Ok [Ok ([0; 32; 1; 128; 0; 4; 210; 8] ++
       [3; 2] ++ [0; 4; 235; 151; 240; 42; 73; 212; 255; 50; 0] ++ [0; 6] ++ lit "c=1" ++ [0; 6] ++ lit "d=2" ++
       [4; 0; 84; 124; 61; 172; 128; 124; 128]);
   Ok ([0; 10; 1; 128; 0; 4; 210; 8] ++ [1; 0; 0; 68] ++ [3; 0; 0; 64; 188; 128])]) by (vm_compute; reflexivity).
  rewrite Ec, Eh in X. cbn [bind] in X. congruence.
Qed.
