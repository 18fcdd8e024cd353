(** * What bohe's compress writes, header by header. *)
From Coq Require Import String List NArith ZArith Bool Arith Lia ZifyN ZifyNat.
From Verif Require Import PyBase PyStr NBits Bits BB_Model BB_Spec BB_Proofs Prop_BB BB_Read HDHuff_Model D2Huff_Model D2Huff_Proofs D1Huff_Model D1Huff_Proofs Small_Model Bohe_Model.
Import ListNotations.
Open Scope N_scope.
Open Scope py_scope.

Lemma index_of_some k l i : index_of k l = Some i -> nth_error l (N.to_nat i) = Some k /\ i < lenN l.
Proof.
  revert i. induction l as [|x l IH]; intros i; cbn [index_of]; [discriminate|]. destruct (str_eqb_spec k x) as [->|Hn].
  - intros H. assert (i = 0) by congruence. subst. split; [reflexivity|]. unfold lenN. cbn [length]. lia.
  - destruct (index_of k l) as [j|]; cbn [option_map]; [|discriminate]. intros H. assert (i = N.succ j) by congruence. subst.
    destruct (IH j eq_refl) as [H1 H2]. rewrite N2Nat.inj_succ. split; [exact H1|]. unfold lenN in *. cbn [length]. lia.
Qed.
Lemma index_of_none k l : index_of k l = None <-> ~ In k l.
Proof.
  induction l as [|x l IH]; cbn [index_of In]; [tauto|]. destruct (str_eqb_spec k x) as [->|Hn].
  - split; [discriminate|tauto].
  - destruct (index_of k l); cbn [option_map]; split; try discriminate; try tauto; intuition congruence.
Qed.
Lemma index_of_inj k k' l i : index_of k l = Some i -> index_of k' l = Some i -> k = k'.
Proof. intros H H'. apply index_of_some in H, H'. destruct H as [H _], H' as [H' _]. congruence. Qed.

(** ** Bits *)

(** The length field: the upper thirty bits of thirty-two. *)
Definition len_bits (n : N) : list bool := firstn 30 (bits_of_bytes (o32 n)).
Lemma len_bits_len n : length (len_bits n) = 30%nat.
Proof. unfold len_bits. rewrite firstn_length, bits_of_bytes_length. reflexivity. Qed.

Lemma rd_store22 b A R v : rd b A R -> v < 2 ^ 32 -> exists b', bb_store22 b v = Ok b' /\ rd b' A (R ++ len_bits v).
Proof.
  intros H Hv. unfold bb_store22. rewrite pack_L_o32 by exact Hv. cbn [bind]. rewrite store22_is_30 by reflexivity.
  apply (rd_store b A R (o32 v) 30 H); [now apply o32_bytes|reflexivity].
Qed.
Lemma rd_store1 b A R x : rd b A R -> exists b', bb_store1 b x = Ok b' /\ rd b' A (R ++ [x]).
Proof.
  intros H. unfold bb_store1. destruct (rd_store b A R [if x then 128 else 0] 1 H) as (b' & E & H').
  - destruct x; repeat constructor.
  - reflexivity.
  - exists b'. split; [exact E|]. destruct x; exact H'.
Qed.
Lemma rd_store_octets b A R s : rd b A R -> is_bytes s -> exists b', bb_store b s (8 * length s)%nat = Ok b' /\ rd b' A (R ++ bits_of_bytes s).
Proof.
  intros H Hs. destruct (rd_store b A R s (8 * length s) H Hs) as (b' & E & H').
  - unfold bytes_for. apply Nat.div_unique with (r := 7%nat); lia.
  - exists b'. split; [exact E|]. rewrite firstn_all2 in H' by (rewrite bits_of_bytes_length; lia). exact H'.
Qed.

Section Coder.
  Variables (L : library) (h : huffman) (ws : list (list bool)).
  Hypothesis (G : good h ws) (H256 : 256 < lenN ws).

  (** The code words of a text and of the end marker. *)
  Definition text_code (v : str) : list bool := bits_for ws v ++ word_of ws 256.
  Definition text_octets (v : str) : N := lenN (bytes_of_bits (text_code v)).
  Definition text_bits (v : str) : list bool := len_bits (text_octets v) ++ text_code v.

  Definition multi (v : str) : bool := contains multi_text v.
  (** The value as it is written: what the encoder made of it, or itself. *)
  Definition head_bits (k v : str) (val : str) : list bool :=
    match index_of k id_table with
    | Some i =>
        bits_of 8 (i + 1) ++
        match encoder L k with
        | Some _ => [true; multi v] ++ len_bits (lenN val) ++ bits_of_bytes val
        | None => [multi v] ++ text_bits v
        end
    | None => bits_of 8 (N.lor 128 (lenN k)) ++ bits_of_bytes k ++ [false; multi v] ++ text_bits v
    end.

  (** What the value is sent as, and when that succeeds. *)
  Definition sent (k v : str) : res str :=
    match index_of k id_table, encoder L k with
    | Some _, Some e => e v
    | _, _ => Ok v
    end.

  Lemma store_text_ok b A R v : is_bytes v -> rd b A R -> text_octets v < 2 ^ 32 ->
    exists b', store_text h b v = Ok b' /\ rd b' A (R ++ text_bits v).
  Proof.
    intros Hv Hb Hl. unfold store_text, do_huff. rewrite (encode_ok h ws v G H256).
    - cbn [bind]. fold (text_code v). destruct (rd_store22 b A R (text_octets v) Hb Hl) as (b1 & E1 & H1). unfold text_octets in E1. rewrite E1. cbn [bind].
      destruct (rd_store_bits b1 A _ (text_code v) H1) as (b2 & E2 & H2). exists b2. split; [exact E2|]. unfold text_bits. now rewrite app_assoc.
    - eapply Forall_impl; [|exact Hv]. cbn. intros c Hc. lia.
  Qed.
  Lemma store_text_long b A R v : is_bytes v -> rd b A R -> ~ text_octets v < 2 ^ 32 -> store_text h b v = Err StructError.
  Proof.
    intros Hv Hb Hl. unfold store_text, do_huff. rewrite (encode_ok h ws v G H256).
    - cbn [bind]. fold (text_code v). fold (text_octets v). unfold bb_store22, pack_L. destruct (N.ltb_spec (text_octets v) (2 ^ 32)); [contradiction|reflexivity].
    - eapply Forall_impl; [|exact Hv]. cbn. intros c Hc. lia.
  Qed.

  (** Names and values are byte strings; so are the results of encoders. *)
  Definition kv_bytes (kv : str * str) : Prop :=
    is_bytes (fst kv) /\ is_bytes (snd kv) /\ forall s, sent (fst kv) (snd kv) = Ok s -> is_bytes s.
  (** Why a header cannot be written. *)
  Definition kv_error (kv : str * str) : option exn :=
    let (k, v) := kv in
    match sent k v with
    | Err e => Some e
    | Ok s =>
        match index_of k id_table, encoder L k with
        | Some _, Some _ => if lenN s <? 2 ^ 32 then None else Some StructError
        | Some _, None => if text_octets v <? 2 ^ 32 then None else Some StructError
        | None, _ => if (lenN k <? 256) && (text_octets v <? 2 ^ 32) then None else Some StructError
        end
    end.

  Lemma table_small i : i < lenN id_table -> i + 1 < 128.
  Proof. change (lenN id_table) with 57. lia. Qed.
  Lemma lor128_lt n : n < 256 -> N.lor 128 n < 256.
  Proof.
    intros H. destruct (N.lt_ge_cases n 128) as [C|C].
    - rewrite lor128 by exact C. lia.
    - apply lor_lt; lia.
  Qed.

  Lemma header_ok b R k v : kv_bytes (k, v) -> wr b R ->
    match kv_error (k, v) with
    | None => exists s b', sent k v = Ok s /\ bohe_header L h b (k, v) = Ok b' /\ wr b' (R ++ head_bits k v s)
    | Some e => bohe_header L h b (k, v) = Err e
    end.
  Proof.
    intros (Hk & Hv & Hs) Hb. unfold wr in *. cbn [fst snd] in *. unfold kv_error, bohe_header, sent, head_bits in *.
    destruct (index_of k id_table) as [i|] eqn:Ei.
    - pose proof (table_small i (proj2 (index_of_some _ _ _ Ei))) as Hi.
      destruct (rd_store8 b [] R (i + 1) Hb ltac:(lia)) as (b1 & E1 & H1). rewrite E1. cbn [bind].
      destruct (encoder L k) as [e|].
      + destruct (rd_store1 b1 [] _ true H1) as (b2 & E2 & H2). rewrite E2. cbn [bind].
        destruct (rd_store1 b2 [] _ (multi v) H2) as (b3 & E3 & H3). unfold multi in E3. rewrite E3. cbn [bind].
        destruct (e v) as [s|x]; cbn [bind]; [|reflexivity]. specialize (Hs s eq_refl).
        destruct (N.ltb_spec (lenN s) (2 ^ 32)) as [Hl|Hl].
        * destruct (rd_store22 b3 [] _ (lenN s) H3 Hl) as (b4 & E4 & H4). rewrite E4. cbn [bind].
          destruct (rd_store_octets b4 [] _ s H4 Hs) as (b5 & E5 & H5). exists s, b5. split; [reflexivity|]. split; [exact E5|].
          rewrite <- !app_assoc in H5. exact H5.
        * unfold bb_store22, pack_L. destruct (N.ltb_spec (lenN s) (2 ^ 32)); [lia|reflexivity].
      + destruct (rd_store1 b1 [] _ (multi v) H1) as (b2 & E2 & H2). unfold multi in E2. rewrite E2. cbn [bind].
        destruct (N.ltb_spec (text_octets v) (2 ^ 32)) as [Hl|Hl].
        * destruct (store_text_ok b2 [] _ v Hv H2 Hl) as (b3 & E3 & H3). exists v, b3. split; [reflexivity|]. split; [exact E3|].
          rewrite <- !app_assoc in H3. exact H3.
        * apply (store_text_long b2 [] _ v Hv H2). lia.
    - assert (Hlor : lenN k < 256 <-> N.lor 128 (lenN k) < 256).
      { split; [apply lor128_lt|]. intros C. destruct (N.lt_ge_cases (lenN k) 256) as [|D]; [assumption|]. exfalso.
        assert (lenN k <= N.lor 128 (lenN k)); [|lia]. clear. apply N.ldiff_le. apply N.bits_inj. intros j. rewrite N.ldiff_spec, N.lor_spec, N.bits_0.
        destruct (N.testbit (lenN k) j), (N.testbit 128 j); reflexivity. }
      destruct (N.ltb_spec (lenN k) 256) as [Hlk|Hlk]; cbn [andb].
      + destruct (rd_store8 b [] R _ Hb (proj1 Hlor Hlk)) as (b1 & E1 & H1). rewrite E1. cbn [bind].
        destruct (rd_store_octets b1 [] _ k H1 Hk) as (b2 & E2 & H2). rewrite E2. cbn [bind].
        destruct (rd_store1 b2 [] _ false H2) as (b3 & E3 & H3). rewrite E3. cbn [bind].
        destruct (rd_store1 b3 [] _ (multi v) H3) as (b4 & E4 & H4). unfold multi in E4. rewrite E4. cbn [bind].
        destruct (N.ltb_spec (text_octets v) (2 ^ 32)) as [Hl|Hl].
        * destruct (store_text_ok b4 [] _ v Hv H4 Hl) as (b5 & E5 & H5). exists v, b5. split; [reflexivity|]. split; [exact E5|].
          rewrite <- !app_assoc in H5. exact H5.
        * apply (store_text_long b4 [] _ v Hv H4). lia.
      + unfold bb_store8, pack_B. destruct (N.ltb_spec (N.lor 128 (lenN k)) 256) as [C|]; [apply Hlor in C; lia|reflexivity].
  Qed.

  (** The bits of a whole dictionary. *)
  Inductive dict_bits : list (str * str) -> list bool -> Prop :=
  | db_nil : dict_bits [] []
  | db_cons k v s d R : kv_error (k, v) = None -> sent k v = Ok s -> dict_bits d R -> dict_bits ((k, v) :: d) (head_bits k v s ++ R).

  Fixpoint first_error (d : list (str * str)) : option exn :=
    match d with
    | [] => None
    | kv :: r => match kv_error kv with Some e => Some e | None => first_error r end
    end.

  Lemma headers_ok d : Forall kv_bytes d -> forall b R, wr b R ->
    match first_error d with
    | None => exists X b', dict_bits d X /\ bohe_headers L h b d = Ok b' /\ wr b' (R ++ X)
    | Some e => bohe_headers L h b d = Err e
    end.
  Proof.
    induction 1 as [|[k v] d Hkv Hd IH]; intros b R Hb; cbn [first_error bohe_headers].
    - exists [], b. rewrite app_nil_r. split; [constructor|]. auto.
    - pose proof (header_ok b R k v Hkv Hb) as Hh. destruct (kv_error (k, v)) as [e|] eqn:Ee.
      + rewrite Hh. reflexivity.
      + destruct Hh as (s & b1 & Es & E1 & H1). rewrite E1. cbn [bind]. specialize (IH b1 _ H1). destruct (first_error d) as [e|].
        * exact IH.
        * destruct IH as (X & b2 & HX & E2 & H2). exists (head_bits k v s ++ X), b2. split; [now constructor|]. split; [exact E2|]. now rewrite <- app_assoc in H2.
  Qed.

  Lemma compress_ok d : Forall kv_bytes d ->
    match first_error d with
    | None => exists X, dict_bits d X /\ bohe_compress L h d = Ok (bytes_of_bits X)
    | Some e => bohe_compress L h d = Err e
    end.
  Proof.
    intros Hd. pose proof (headers_ok d Hd bb_new [] wr_new) as Hh. unfold bohe_compress. destruct (first_error d) as [e|].
    - rewrite Hh. reflexivity.
    - destruct Hh as (X & b & HX & E & Hb). rewrite E. exists X. split; [exact HX|]. cbn [bind app] in *. f_equal. apply (rd_out _ _ _ Hb).
  Qed.

  (** ** Reading it back *)

  Lemma text_code_unique v v' X Y : is_bytes v -> is_bytes v' -> text_code v ++ X = text_code v' ++ Y -> v = v' /\ X = Y.
  Proof.
    intros Hv Hv' E.
    assert (W : forall w, is_bytes w -> Forall (fun c => c < lenN ws /\ c <> 256) w).
    { intros w Hw. eapply Forall_impl; [|exact Hw]. cbn. intros c Hc. lia. }
    destruct (rd_store_bits bb_new [] [] (text_code v ++ X) wr_new) as (b & _ & Hb). cbn [app] in Hb.
    pose proof Hb as Hb'. rewrite E in Hb'. unfold text_code in Hb, Hb'. rewrite <- app_assoc in Hb, Hb'.
    destruct (decode_eof_ok h ws v G H256 (W v Hv) b [] X Hb) as (b1 & E1 & _).
    destruct (decode_eof_ok h ws v' G H256 (W v' Hv') b [] Y Hb') as (b2 & E2 & _).
    assert (v = v') by congruence. subst v'. split; [reflexivity|]. eapply app_inv_head, E.
  Qed.
  Lemma text_bits_unique v v' X Y : is_bytes v -> is_bytes v' -> text_bits v ++ X = text_bits v' ++ Y -> v = v' /\ X = Y.
  Proof.
    intros Hv Hv' E. unfold text_bits in E. rewrite <- !app_assoc in E. apply app_split in E; [|now rewrite !len_bits_len].
    destruct E as [_ E]. now apply text_code_unique.
  Qed.

  Lemma bits_of_inj n a b : a < 2 ^ N.of_nat n -> b < 2 ^ N.of_nat n -> bits_of n a = bits_of n b -> a = b.
  Proof. intros Ha Hb E. rewrite <- (val_of_bits_small n a Ha), <- (val_of_bits_small n b Hb). now rewrite E. Qed.
  Lemma bits8_inj a b : a < 256 -> b < 256 -> bits_of 8 a = bits_of 8 b -> a = b.
  Proof. apply (bits_of_inj 8). Qed.

  Lemma len_bits_div n m : n < 2 ^ 32 -> m < 2 ^ 32 -> len_bits n = len_bits m -> n / 4 = m / 4.
  Proof.
    assert (V : forall n, n < 2 ^ 32 -> val_of (len_bits n) = n / 4).
    { clear. intros n Hn. assert (Ev : val_of (bits_of_bytes (o32 n)) = n).
      { unfold o32. rewrite !bob_cons. cbn [bits_of_bytes flat_map]. rewrite app_nil_r, !val_of_app. unfold lenN. rewrite !app_length, !bits_of_length.
        rewrite !val_of_bits_small. 2-5: change (2 ^ N.of_nat 8) with 256; try (apply N.mod_upper_bound; cbv; discriminate).
        2: { apply N.div_lt_upper_bound; [cbv; discriminate|]. exact Hn. }
        change (2 ^ N.of_nat (8 + (8 + 8))) with (2 ^ 24). change (2 ^ N.of_nat (8 + 8)) with (2 ^ 16). change (2 ^ N.of_nat 8) with (2 ^ 8).
        pose proof (o32_value n) as O. rewrite !N.add_assoc. exact O. }
      rewrite <- (firstn_skipn 30 (bits_of_bytes (o32 n))), val_of_app in Ev. fold (len_bits n) in Ev.
      assert (El : lenN (skipn 30 (bits_of_bytes (o32 n))) = 2) by reflexivity. rewrite El in Ev. change (2 ^ 2) with 4 in Ev.
      pose proof (val_of_bound (skipn 30 (bits_of_bytes (o32 n)))) as B. rewrite El in B. change (2 ^ 2) with 4 in B.
      apply N.div_unique with (r := val_of (skipn 30 (bits_of_bytes (o32 n)))); [exact B|lia]. }
    intros Hn Hm E. rewrite <- (V n Hn), <- (V m Hm). now rewrite E.
  Qed.

  (** Headers a reader can tell apart. *)
  Definition readable (kv : str * str) : Prop :=
    match index_of (fst kv) id_table, encoder L (fst kv) with
    | Some _, Some _ => forall s, sent (fst kv) (snd kv) = Ok s -> lenN s mod 4 = 0
    | Some _, None => True
    | None, _ => lenN (fst kv) < 128
    end.

  Lemma head_bits_unique k v s k' v' s' X Y :
    kv_bytes (k, v) -> kv_bytes (k', v') -> readable (k, v) -> readable (k', v') ->
    kv_error (k, v) = None -> kv_error (k', v') = None -> sent k v = Ok s -> sent k' v' = Ok s' ->
    head_bits k v s ++ X = head_bits k' v' s' ++ Y -> k = k' /\ s = s' /\ X = Y.
  Proof.
    intros (Bk & Bv & Bs) (Bk' & Bv' & Bs') Hr Hr' He He' Hs Hs' E. cbn [fst snd] in *. specialize (Bs s Hs). specialize (Bs' s' Hs').
    unfold kv_error in He, He'. unfold readable in Hr, Hr'. cbn [fst snd] in Hr, Hr'. rewrite Hs in He, Hr. rewrite Hs' in He', Hr'. unfold sent in Hs, Hs'. unfold head_bits in E.
    destruct (index_of k id_table) as [i|] eqn:Ei, (index_of k' id_table) as [i'|] eqn:Ei'.
    - pose proof (table_small i (proj2 (index_of_some _ _ _ Ei))) as Hi. pose proof (table_small i' (proj2 (index_of_some _ _ _ Ei'))) as Hi'.
      rewrite <- !app_assoc in E. apply app_split in E; [|now rewrite !bits_of_length]. destruct E as [E0 E].
      apply bits8_inj in E0; [|lia|lia]. assert (i = i') by lia. subst i'. assert (k = k') by (eapply index_of_inj; eassumption). subst k'. split; [reflexivity|].
      destruct (encoder L k) as [e|].
      + rewrite <- !app_assoc in E. apply app_split in E; [|reflexivity]. destruct E as [_ E]. apply app_split in E; [|now rewrite !len_bits_len]. destruct E as [E2 E].
        destruct (N.ltb_spec (lenN s) (2 ^ 32)) as [Hl|]; [|discriminate]. destruct (N.ltb_spec (lenN s') (2 ^ 32)) as [Hl'|]; [|discriminate].
        apply len_bits_div in E2; [|assumption|assumption]. specialize (Hr s eq_refl). specialize (Hr' s' eq_refl).
        pose proof (N.div_mod (lenN s) 4 ltac:(lia)). pose proof (N.div_mod (lenN s') 4 ltac:(lia)).
        assert (El : length s = length s') by (assert (lenN s = lenN s') by lia; unfold lenN in *; lia).
        apply app_split in E; [|now rewrite !bits_of_bytes_length, El]. destruct E as [E3 E]. split; [now apply bits_of_bytes_inj|exact E].
      + rewrite <- !app_assoc in E. apply app_split in E; [|reflexivity]. destruct E as [_ E]. apply text_bits_unique in E; [|assumption|assumption]. split; [|apply E].
        assert (s = v) by congruence. assert (s' = v') by congruence. subst. apply E.
    - exfalso. pose proof (table_small i (proj2 (index_of_some _ _ _ Ei))) as Hi. rewrite <- !app_assoc in E. apply app_split in E; [|now rewrite !bits_of_length].
      destruct E as [E0 _]. destruct (encoder L k'); rewrite lor128 in E0 by lia; apply bits8_inj in E0; lia.
    - exfalso. pose proof (table_small i' (proj2 (index_of_some _ _ _ Ei'))) as Hi'. rewrite <- !app_assoc in E. apply app_split in E; [|now rewrite !bits_of_length].
      destruct E as [E0 _]. destruct (encoder L k); rewrite lor128 in E0 by lia; apply bits8_inj in E0; lia.
    - assert (Hr1 : lenN k < 128) by (destruct (encoder L k); exact Hr). assert (Hr2 : lenN k' < 128) by (destruct (encoder L k'); exact Hr').
      rewrite <- !app_assoc in E. apply app_split in E; [|now rewrite !bits_of_length]. destruct E as [E0 E].
      rewrite !lor128 in E0 by assumption. apply bits8_inj in E0; [|lia|lia].
      apply app_split in E; [|rewrite !bits_of_bytes_length; unfold lenN in *; lia]. destruct E as [E1 E].
      assert (k = k') by now apply bits_of_bytes_inj. subst k'. split; [reflexivity|]. apply app_split in E; [|reflexivity]. destruct E as [_ E].
      apply text_bits_unique in E; [|assumption|assumption].
      assert (s = v) by (destruct (encoder L k); congruence). assert (s' = v') by (destruct (encoder L k); congruence). subst. tauto.
  Qed.

  Lemma head_bits_long k v s : (8 <= length (head_bits k v s))%nat.
  Proof. unfold head_bits. destruct (index_of k id_table); rewrite app_length, bits_of_length; lia. Qed.

  (** What two dictionaries with the same output have in common. *)
  Definition same_sent (a b : str * str) : Prop := fst a = fst b /\ sent (fst a) (snd a) = sent (fst b) (snd b).

  Lemma dict_bits_unique d : forall d' X X' n n', Forall kv_bytes d -> Forall kv_bytes d' -> Forall readable d -> Forall readable d' ->
    dict_bits d X -> dict_bits d' X' -> (n < 8)%nat -> (n' < 8)%nat -> X ++ repeat false n = X' ++ repeat false n' -> Forall2 same_sent d d'.
  Proof.
    induction d as [|[k v] d IH]; intros d' X X' n n' Hb Hb' Hr Hr' HX HX' Hn Hn' E.
    - inversion HX; subst. destruct d' as [|[k' v'] d']; [constructor|]. inversion HX'; subst. exfalso.
      apply (f_equal (@length bool)) in E. cbn [app] in E. rewrite !app_length, !repeat_length in E. pose proof (head_bits_long k' v' s). lia.
    - inversion HX as [|? ? s ? R He Hs HR]; subst. destruct d' as [|[k' v'] d'].
      + exfalso. inversion HX'; subst. apply (f_equal (@length bool)) in E. cbn [app] in E. rewrite !app_length, !repeat_length in E. pose proof (head_bits_long k v s). lia.
      + inversion HX' as [|? ? s' ? R' He' Hs' HR']; subst. inversion Hb; subst. inversion Hb'; subst. inversion Hr; subst. inversion Hr'; subst.
        rewrite <- !app_assoc in E. apply head_bits_unique in E; try assumption. destruct E as (-> & -> & E).
        constructor; [split; cbn [fst snd]; [reflexivity|congruence]|]. eapply IH with (X := R) (X' := R') (n := n) (n' := n'); assumption.
  Qed.

  Lemma pad_len_lt n : (pad_len n < 8)%nat.
  Proof. unfold pad_len. apply Nat.mod_upper_bound. lia. Qed.

  Lemma compress_unique d d' out : Forall kv_bytes d -> Forall kv_bytes d' -> Forall readable d -> Forall readable d' ->
    bohe_compress L h d = Ok out -> bohe_compress L h d' = Ok out -> Forall2 same_sent d d'.
  Proof.
    intros Hb Hb' Hr Hr' E E'. pose proof (compress_ok d Hb) as C. pose proof (compress_ok d' Hb') as C'.
    destruct (first_error d); [congruence|]. destruct (first_error d'); [congruence|].
    destruct C as (X & HX & EX). destruct C' as (X' & HX' & EX'). assert (Eo : bytes_of_bits X = bytes_of_bits X') by congruence.
    pose proof (bytes_of_bits_spec X) as [S _]. pose proof (bytes_of_bits_spec X') as [S' _]. rewrite Eo in S. rewrite S in S'.
    eapply dict_bits_unique with (X := X) (X' := X') (n := pad_len (length X)) (n' := pad_len (length X')); try assumption; apply pad_len_lt.
  Qed.
End Coder.
