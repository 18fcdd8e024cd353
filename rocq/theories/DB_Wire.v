(** * delta_bohe: from instructions to octets. *)
From Coq Require Import String List NArith ZArith Bool Arith Lia ZifyN ZifyNat Permutation.
From Verif Require Import PyBase PyStr NBits Bits BB_Model BB_Spec BB_Proofs BB_Read D2Huff_Model D2Huff_Proofs D2Wire_Proofs D2Wire_Frame.
From Verif Require Import D1Huff_Model D1Wire_Model D1Wire_Proofs D1Wire_Frame Small_Model Bohe_Model DB_Model.
Import ListNotations.
Open Scope N_scope.
Open Scope py_scope.
Ltac Zify.zify_post_hook ::= Z.div_mod_to_equations.

(** The header of a frame. *)
Definition head (len flags sid typ : N) : list N := o16 len ++ [flags] ++ o32 (N.lor 0x80000000 sid) ++ [typ].
Lemma head_length len flags sid typ : length (head len flags sid typ) = 8%nat.
Proof. reflexivity. Qed.
Lemma head_bytes len flags sid typ : len < 65536 -> flags < 256 -> N.lor 0x80000000 sid < 2 ^ 32 -> typ < 256 -> is_bytes (head len flags sid typ).
Proof.
  intros H1 H2 H3 H4. unfold head, is_bytes. rewrite !Forall_app.
  split; [now apply o16_bytes|]. split; [now repeat constructor|]. split; [now apply o32_bytes|]. now repeat constructor.
Qed.
Lemma frame_head_ok len flags sid typ b A R : len < 65536 -> flags < 256 -> N.lor 0x80000000 sid < 2 ^ 32 -> typ < 256 -> rd b A R ->
  exists b', frame_head b len flags sid typ = Ok b' /\ rd b' A (R ++ bits_of_bytes (head len flags sid typ)).
Proof.
  intros H1 H2 H3 H4 Hb. unfold frame_head.
  destruct (rd_store16 b A R len Hb H1) as (b1 & E1 & B1). rewrite E1. cbn [bind].
  destruct (rd_store8 b1 A _ flags B1 H2) as (b2 & E2 & B2). rewrite E2. cbn [bind].
  destruct (rd_store32 b2 A _ _ B2 H3) as (b3 & E3 & B3). rewrite E3. cbn [bind].
  destruct (rd_store8 b3 A _ typ B3 H4) as (b4 & E4 & B4). exists b4. split; [exact E4|].
  unfold head. rewrite !bob_app, !bob_one, !app_assoc. exact B4.
Qed.

Lemma put_frames_ok : forall fuel payload b A R, is_bytes payload -> (length payload < fuel)%nat -> rd b A R ->
  exists b' x, put_frames fuel b payload (lenN payload) 65528 = Ok b' /\ is_bytes x /\
    rd b' A (R ++ bits_of_bytes (head (N.min (lenN payload) 65528) 1 1234 8 ++ payload ++ x)) /\
    (lenN payload <= 65528 -> x = []).
Proof.
  induction fuel as [|f IH]; intros payload b A R Hp Hf Hb; [lia|]. cbn [put_frames]. cbv zeta.
  set (c := N.min (lenN payload) 65528). destruct (N.leb_spec c (lenN payload)) as [_|L]; [|unfold c in L; lia].
  destruct (frame_head_ok c 1 1234 8 b A R ltac:(unfold c; lia) ltac:(lia) sid1_ok ltac:(lia) Hb) as (b1 & E1 & B1). rewrite E1. cbn [bind].
  destruct (store_octets b1 A _ payload (N.to_nat c) B1 Hp) as (b2 & E2 & B2). rewrite E2. cbn [bind].
  rewrite <- app_assoc, <- bob_app in B2. destruct (N.leb_spec (lenN payload) 65528) as [L|L].
  - exists b2, []. split; [reflexivity|]. split; [constructor|]. rewrite app_nil_r. split; [exact B2|reflexivity].
  - assert (Hsk : is_bytes (skipn (N.to_nat c) payload)).
    { unfold is_bytes in *. rewrite <- (firstn_skipn (N.to_nat c) payload) in Hp. apply Forall_app in Hp. apply Hp. }
    assert (Hlen : lenN payload - 65528 = lenN (skipn (N.to_nat c) payload)) by (unfold c, lenN in *; rewrite skipn_length; clear -L; lia).
    rewrite Hlen. assert (Hsl : (length (skipn (N.to_nat c) payload) < f)%nat).
    { clear IH. rewrite skipn_length. unfold c, lenN in *. clear -Hf L. lia. }
    destruct (IH (skipn (N.to_nat c) payload) b2 A _ Hsk Hsl B2) as (b3 & x & E3 & Hx & B3 & _).
    exists b3. eexists. split; [exact E3|]. split; [|split; [|intros C; apply N.lt_nge in L; contradiction]].
    2:{ rewrite <- !app_assoc, <- bob_app, <- !app_assoc in B3. exact B3. }
    unfold is_bytes. rewrite !Forall_app. split; [|split; [exact Hsk|exact Hx]].
    apply head_bytes; try reflexivity. lia.
Qed.

(** Everything fits its field. *)
Record instrs_ok (i : instrs) : Prop := mk_instrs_ok {
  no_toggl : Forall idx_ok (n_toggl i);
  no_clone : Forall (fun c => idx_ok (fst (fst c)) /\ is_bytes (snd (fst c))) (n_clone i);
  no_kvsto : Forall (fun c => is_bytes (fst (fst c)) /\ is_bytes (snd (fst c))) (n_kvsto i) }.

Definition wop_ok (o : wop) : Prop :=
  match o with
  | WToggl i => idx_ok i
  | WTrang i s => idx_ok i /\ idx_ok s
  | WClone i v _ => idx_ok i /\ is_bytes v
  | WKvsto k v _ => is_bytes k /\ is_bytes v
  end.
(** The operations as they are written, kind by kind. *)
Definition kinds (i : instrs) : list (kind * list wop) :=
  let (ot, otr) := toggle_ranges (n_toggl i) in
  [(KToggl, map WToggl ot); (KTrang, map (fun '(s, e) => WTrang e s) otr);
   (KClone, map (fun '(n, v, f) => WClone n v f) (n_clone i)); (KKvsto, map (fun '(k, v, f) => WKvsto k v f) (n_kvsto i))].
Fixpoint put_kinds (h : huffman) (b : bb) (l : list (kind * list wop)) : res bb :=
  match l with [] => Ok b | (k, ops) :: r => let* b := put_kind h b k ops in put_kinds h b r end.
Lemma put_instrs_kinds h i : put_instrs h i = put_kinds h bb_new (kinds i).
Proof.
  unfold put_instrs, kinds. destruct (toggle_ranges (n_toggl i)) as [ot otr]. cbn [put_kinds].
  destruct (put_kind h bb_new KToggl _); [|reflexivity]. cbn [bind]. destruct (put_kind h _ KTrang _); [|reflexivity]. cbn [bind].
  destruct (put_kind h _ KClone _); [|reflexivity]. cbn [bind]. now destruct (put_kind h _ KKvsto _).
Qed.
Lemma kinds_ok i : instrs_ok i -> Forall (fun c => Forall wop_ok (snd c)) (kinds i).
Proof.
  intros [H1 H2 H3]. unfold kinds. destruct (toggle_ranges (n_toggl i)) as [ot otr] eqn:E.
  destruct (toggle_ranges_ok _ _ _ E) as [HP HF].
  assert (Hall : Forall idx_ok (all_idx ot otr)) by (eapply Permutation_Forall; [symmetry; exact HP|exact H1]).
  apply Forall_app in Hall. destruct Hall as [Ha Hb]. repeat constructor; cbn [fst snd].
  - apply Forall_map. exact Ha.
  - apply Forall_map. rewrite Forall_forall in *. intros [s e] Hin. cbn. specialize (HF _ Hin). destruct (range_ends _ HF) as [I1 I2].
    split; apply Hb; apply in_flat_map; exists (s, e); auto.
  - apply Forall_map. eapply Forall_impl; [|exact H2]. intros [[k v] f]. now cbn.
  - apply Forall_map. eapply Forall_impl; [|exact H3]. intros [[k v] f]. now cbn.
Qed.

Section Wire.
  Variables (h : huffman) (ws : list (list bool)).
  Hypothesis (G : good h ws) (He : 256 < lenN ws).

  (** What a string, an operation, a kind and a message are written as. *)
  Definition str_oct (f : bool) (s : str) : list N := if f then soct ws s else s.
  Definition wop_oct (o : wop) : list N :=
    match o with
    | WToggl i => idx_oct i
    | WTrang i s => idx_oct i ++ idx_oct s
    | WClone i v f => idx_oct i ++ str_oct f v
    | WKvsto k v f => str_oct f k ++ str_oct f v
    end.
  Definition kind_oct (c : kind * list wop) : list N :=
    match snd c with [] => [] | _ => [kind_val (fst c); N.min 256 (lenN (snd c)) - 1] ++ flat_map wop_oct (snd c) end.
  Definition payload (i : instrs) : list N := flat_map kind_oct (kinds i).

  Lemma put_str_ok f s b A R : is_bytes s -> rd b A R -> exists b', put_str h f b s = Ok b' /\ rd b' A (R ++ bits_of_bytes (str_oct f s)) /\ is_bytes (str_oct f s).
  Proof.
    intros Hs Hb. destruct f; cbn [put_str str_oct].
    - destruct (pack_str1_ok h ws G He s b A R Hs Hb) as (b' & E & B). exists b'. split; [exact E|]. split; [exact B|apply soct_bytes].
    - destruct (store_octets b A R s (length s) Hb Hs) as (b' & E & B). exists b'. auto.
  Qed.
  Lemma put_op_ok o b A R : wop_ok o -> rd b A R -> exists b', put_op h b o = Ok b' /\ rd b' A (R ++ bits_of_bytes (wop_oct o)) /\ is_bytes (wop_oct o).
  Proof.
    intros Ho Hb. destruct o as [i|i s|i v f|k v f]; cbn [put_op wop_oct wop_ok] in *.
    - destruct (pack_int16_ok i b A R Ho Hb) as (b' & E & B). exists b'. split; [exact E|]. split; [exact B|now apply idx_oct_bytes].
    - destruct Ho as [H1 H2]. destruct (pack_int16_ok i b A R H1 Hb) as (b1 & E1 & B1). rewrite E1. cbn [bind].
      destruct (pack_int16_ok s b1 A _ H2 B1) as (b2 & E2 & B2). exists b2. split; [exact E2|]. rewrite bob_app, app_assoc. split; [exact B2|].
      apply Forall_app. split; now apply idx_oct_bytes.
    - destruct Ho as [H1 H2]. destruct (pack_int16_ok i b A R H1 Hb) as (b1 & E1 & B1). rewrite E1. cbn [bind].
      destruct (put_str_ok f v b1 A _ H2 B1) as (b2 & E2 & B2 & Hv). exists b2. split; [exact E2|]. rewrite bob_app, app_assoc. split; [exact B2|].
      apply Forall_app. split; [now apply idx_oct_bytes|exact Hv].
    - destruct Ho as [H1 H2]. destruct (put_str_ok f k b A R H1 Hb) as (b1 & E1 & B1 & Hk). rewrite E1. cbn [bind].
      destruct (put_str_ok f v b1 A _ H2 B1) as (b2 & E2 & B2 & Hv). exists b2. split; [exact E2|]. rewrite bob_app, app_assoc. split; [exact B2|].
      apply Forall_app. now split.
  Qed.
  Lemma put_ops_ok l : Forall wop_ok l -> forall b A R, rd b A R ->
    exists b', put_ops h b l = Ok b' /\ rd b' A (R ++ bits_of_bytes (flat_map wop_oct l)) /\ is_bytes (flat_map wop_oct l).
  Proof.
    induction 1 as [|o r Ho HF IH]; intros b A R Hb; cbn [put_ops flat_map].
    - exists b. cbn. rewrite app_nil_r. split; [reflexivity|]. split; [exact Hb|constructor].
    - destruct (put_op_ok o b A R Ho Hb) as (b1 & E1 & B1 & F1). rewrite E1. cbn [bind]. destruct (IH b1 A _ B1) as (b2 & E2 & B2 & F2).
      exists b2. split; [exact E2|]. rewrite bob_app, app_assoc. split; [exact B2|]. apply Forall_app. now split.
  Qed.
  Lemma put_kind_ok c b A R : Forall wop_ok (snd c) -> rd b A R ->
    exists b', put_kind h b (fst c) (snd c) = Ok b' /\ rd b' A (R ++ bits_of_bytes (kind_oct c)) /\ is_bytes (kind_oct c).
  Proof.
    intros Hc Hb. destruct c as [k ops]. unfold kind_oct, put_kind. cbn [fst snd] in *. destruct ops as [|o r].
    - exists b. cbn. rewrite app_nil_r. split; [reflexivity|]. split; [exact Hb|constructor].
    - destruct (rd_store8 b A R (kind_val k) Hb (kind_val_lt k)) as (b1 & E1 & B1). rewrite E1. cbn [bind].
      destruct (rd_store8 b1 A _ (N.min 256 (lenN (o :: r)) - 1) B1 ltac:(lia)) as (b2 & E2 & B2). rewrite E2. cbn [bind].
      destruct (put_ops_ok _ Hc b2 A _ B2) as (b3 & E3 & B3 & F3). exists b3. split; [exact E3|]. rewrite !bob_app. split.
      + cbn [bits_of_bytes flat_map]. rewrite app_nil_r, !app_assoc. exact B3.
      + apply Forall_app. split; [|exact F3]. constructor; [apply kind_val_lt|constructor; [lia|constructor]].
  Qed.
  Lemma put_kinds_ok cs : Forall (fun c => Forall wop_ok (snd c)) cs -> forall b A R, rd b A R ->
    exists b', put_kinds h b cs = Ok b' /\ rd b' A (R ++ bits_of_bytes (flat_map kind_oct cs)) /\ is_bytes (flat_map kind_oct cs).
  Proof.
    induction 1 as [|[k ops] r Hc HF IH]; intros b A R Hb; cbn [put_kinds flat_map].
    - exists b. cbn. rewrite app_nil_r. split; [reflexivity|]. split; [exact Hb|constructor].
    - destruct (put_kind_ok _ b A R Hc Hb) as (b1 & E1 & B1 & F1). cbn [fst snd] in E1. rewrite E1. cbn [bind].
      destruct (IH b1 A _ B1) as (b2 & E2 & B2 & F2). exists b2. split; [exact E2|]. rewrite bob_app, app_assoc. split; [exact B2|]. apply Forall_app. now split.
  Qed.

  Lemma real_ops_ok i : instrs_ok i ->
    exists x, is_bytes x /\ real_ops h i = Ok (head (N.min (lenN (payload i)) 65528) 1 1234 8 ++ payload i ++ x) /\
      (lenN (payload i) <= 65528 -> x = []).
  Proof.
    intros Hi. unfold real_ops, serialize. rewrite put_instrs_kinds.
    destruct (put_kinds_ok (kinds i) (kinds_ok i Hi) bb_new [] [] wr_new) as (pb & E0 & B0 & Hp). rewrite E0. cbn [bind]. fold (payload i) in *.
    unfold bb_all. destruct (rd_out _ _ _ B0) as [Eo _]. rewrite Eo, (rd_num _ _ _ B0). cbn [app length Nat.add].
    rewrite bytes_of_bits_of_bytes by exact Hp. rewrite bits_of_bytes_length.
    destruct (frame_head_ok 0 0 0 0 bb_new [] [] ltac:(reflexivity) ltac:(reflexivity) ltac:(reflexivity) ltac:(reflexivity) wr_new) as (fb & Ef & Bf).
    rewrite Ef. cbn [bind]. cbv zeta.
    assert (Efb : bb_bytes fb = 8%nat).
    { unfold bb_bytes. rewrite (rd_num _ _ _ Bf). cbn [app]. rewrite bits_of_bytes_length, head_length. reflexivity. }
    rewrite Efb. change (65536 - N.of_nat 8) with 65528.
    replace (N.of_nat ((8 * length (payload i) + 7) / 8)) with (lenN (payload i)) by (unfold lenN; lia).
    destruct (put_frames_ok (S (length (payload i))) (payload i) bb_new [] [] Hp ltac:(lia) wr_new) as (b & x & E & Hx & B & Hz).
    rewrite E. cbn [bind app] in *. exists x. split; [exact Hx|]. split; [|exact Hz].
    destruct (copy_bits b _ B) as (d & Ed & Bd). rewrite Ed. cbn [bind fst]. f_equal.
    destruct (rd_out _ _ _ Bd) as [-> _]. cbn [app]. apply bytes_of_bits_of_bytes. unfold is_bytes. rewrite !Forall_app.
    split; [|split; [exact Hp|exact Hx]]. apply head_bytes; try reflexivity. lia.
  Qed.

  (** The same instructions as delta v1's, when every string is Huffman coded. *)
  Definition texts (i : instrs) : Prop := Forall (fun c => snd c = true) (n_clone i) /\ Forall (fun c => snd c = true) (n_kvsto i).
  Definition as_instr (i : instrs) : instr := mk_instr (n_toggl i) (map fst (n_clone i)) (map fst (n_kvsto i)) [].
  Lemma payload_text i : texts i -> payload i = payload1 ws (as_instr i).
  Proof.
    intros [H1 H2]. unfold payload, payload1, kinds, wire_kinds, as_instr. cbn [i_toggl i_clone i_kvsto i_eref]. destruct (toggle_ranges (n_toggl i)) as [ot otr].
    unfold chunks_oct. cbn [flat_map map]. rewrite app_nil_r. cbn [chunk_oct snd]. rewrite app_nil_r.
    assert (K : forall k (A : Type) (l : list A) (f : A -> wop) (g : A -> op1), (forall x, In x l -> wop_oct (f x) = op_oct ws (g x)) -> kind_oct (k, map f l) = chunk_oct ws (k, map g l)).
    { intros k A l f g Hfg. unfold kind_oct, chunk_oct. cbn [fst snd].
      assert (E : flat_map wop_oct (map f l) = ops_oct ws (map g l)).
      { clear - Hfg. induction l as [|a l IH]; [reflexivity|]. cbn [map flat_map ops_oct]. rewrite (Hfg a (or_introl eq_refl)). f_equal. apply IH. intros x Hx. apply Hfg. now right. }
      destruct l as [|a l]; [reflexivity|]. cbn [map] in *. rewrite E. unfold lenN. cbn [length]. rewrite !map_length. reflexivity. }
    rewrite !map_map. f_equal; [|f_equal; [|f_equal]].
    - now apply K.
    - apply K. now intros [s e] _.
    - apply K. intros [[n v] f] Hx. rewrite Forall_forall in H1. specialize (H1 _ Hx). cbn [snd] in H1. subst f. reflexivity.
    - apply K. intros [[n v] f] Hx. rewrite Forall_forall in H2. specialize (H2 _ Hx). cbn [snd] in H2. subst f. reflexivity.
  Qed.
End Wire.

(** An index that does not fit is refused. *)
Definition refused {A} (r : res A) : Prop := r = Err StandardError \/ r = Err StructError.
Lemma pack_int16_bad i b : ~ idx_ok i -> refused (pack_int16 b i).
Proof.
  unfold idx_ok, pack_int16, refused. intros Hi. destruct (Z.testbit i 16); [now left|]. destruct (Z.ltb_spec i 0); [now right|].
  unfold bb_store16, pack_H. destruct (N.ltb_spec (Z.to_N i) 65536); [lia|]. now right.
Qed.
Definition is_toggle (o : wop) : Prop := match o with WToggl _ | WTrang _ _ => True | _ => False end.
Lemma idx_ok_dec i : {idx_ok i} + {~ idx_ok i}.
Proof.
  unfold idx_ok. destruct (Z_le_dec 0 i); [destruct (Z_lt_dec i 65536); [left; lia|right; lia]|right; lia].
Qed.
Lemma put_toggle h o b A R : is_toggle o -> rd b A R -> (wop_ok o /\ exists b' R', put_op h b o = Ok b' /\ rd b' A R') \/ (~ wop_ok o /\ refused (put_op h b o)).
Proof.
  intros Ho Hb. destruct o as [i|i s| |]; try contradiction; cbn [put_op wop_ok].
  - destruct (idx_ok_dec i) as [H|H]; [left; split; [exact H|]|right; split; [exact H|now apply pack_int16_bad]]. destruct (pack_int16_ok i b A R H Hb) as (b' & E & B). eauto.
  - destruct (idx_ok_dec i) as [H|H].
    + destruct (pack_int16_ok i b A R H Hb) as (b1 & E1 & B1). rewrite E1. cbn [bind]. destruct (idx_ok_dec s) as [H'|H'].
      * left. split; [now split|]. destruct (pack_int16_ok s b1 A _ H' B1) as (b' & E & B). eauto.
      * right. split; [tauto|]. now apply pack_int16_bad.
    + right. split; [tauto|]. destruct (pack_int16_bad i b H) as [E|E]; rewrite E; [now left|now right].
Qed.
Lemma put_toggles h l : Forall is_toggle l -> forall b A R, rd b A R ->
  (Forall wop_ok l /\ exists b' R', put_ops h b l = Ok b' /\ rd b' A R') \/ (~ Forall wop_ok l /\ refused (put_ops h b l)).
Proof.
  induction 1 as [|o r Ho HF IH]; intros b A R Hb; cbn [put_ops].
  - left. split; [constructor|]. eauto.
  - destruct (put_toggle h o b A R Ho Hb) as [[H (b1 & R1 & E1 & B1)]|[H [E|E]]].
    + rewrite E1. cbn [bind]. destruct (IH b1 A R1 B1) as [[H' X]|[H' X]]; [left; split; [now constructor|exact X]|right; split; [|exact X]]. intros C. inversion C. contradiction.
    + right. split; [|rewrite E; now left]. intros C. inversion C. contradiction.
    + right. split; [|rewrite E; now right]. intros C. inversion C. contradiction.
Qed.
Lemma put_kind_toggles h k l : Forall is_toggle l -> forall b A R, rd b A R ->
  (Forall wop_ok l /\ exists b' R', put_kind h b k l = Ok b' /\ rd b' A R') \/ (~ Forall wop_ok l /\ refused (put_kind h b k l)).
Proof.
  intros Hl b A R Hb. unfold put_kind. destruct l as [|o r]; [left; split; [constructor|eauto]|].
  destruct (rd_store8 b A R (kind_val k) Hb (kind_val_lt k)) as (b1 & E1 & B1). rewrite E1. cbn [bind].
  destruct (rd_store8 b1 A _ (N.min 256 (lenN (o :: r)) - 1) B1 ltac:(lia)) as (b2 & E2 & B2). rewrite E2. cbn [bind].
  now apply put_toggles with (A := A) (R := ((R ++ bits_of 8 (kind_val k)) ++ bits_of 8 (N.min 256 (lenN (o :: r)) - 1))).
Qed.
Lemma put_instrs_refused h i : ~ Forall idx_ok (n_toggl i) -> refused (put_instrs h i).
Proof.
  intros Hn. unfold put_instrs. destruct (toggle_ranges (n_toggl i)) as [ot otr] eqn:Et. destruct (toggle_ranges_ok _ _ _ Et) as [HP HF].
  assert (T1 : Forall is_toggle (map WToggl ot)) by (apply Forall_map, Forall_forall; now cbn).
  assert (T2 : Forall is_toggle (map (fun '(s, e) => WTrang e s) otr)) by (apply Forall_map, Forall_forall; now intros [s e]).
  destruct (put_kind_toggles h KToggl _ T1 bb_new [] [] wr_new) as [[H1 (b1 & R1 & E1 & B1)]|[_ [E|E]]]; [|rewrite E; now left|rewrite E; now right].
  rewrite E1. cbn [bind]. destruct (put_kind_toggles h KTrang _ T2 b1 [] R1 B1) as [[H2 _]|[_ [E|E]]]; [|rewrite E; now left|rewrite E; now right].
  exfalso. apply Hn. eapply Permutation_Forall; [exact HP|]. unfold all_idx. apply Forall_app. split; [rewrite Forall_map in H1; exact H1|].
  rewrite Forall_map in H2. rewrite Forall_forall in *. intros x Hx. apply in_flat_map in Hx. destruct Hx as ([s e] & Hr & Hx). specialize (H2 _ Hr). cbn in H2. destruct H2 as [He Hs].
  unfold range_idx in Hx. apply in_map_iff in Hx. destruct Hx as (n & <- & Hn'). apply in_seq in Hn'. cbn [fst snd] in *. unfold idx_ok in *. lia.
Qed.
Lemma real_ops_refused h i : ~ Forall idx_ok (n_toggl i) -> refused (real_ops h i).
Proof. intros Hn. destruct (put_instrs_refused h i Hn) as [E|E]; unfold real_ops, serialize; rewrite E; [now left|now right]. Qed.
