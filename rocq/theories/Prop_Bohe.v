(** * Properties C56-C59: the bohe compressor. *)
From Coq Require Import String List NArith ZArith Bool Arith Lia ZifyN ZifyNat Permutation.
From Verif Require Import PyBase PyStr NBits Bits BB_Model BB_Spec BB_Proofs BB_Read HDHuff_Model D2Huff_Model D2Huff_Proofs Prop_D2Huff
  D1Huff_Model D1Huff_Proofs Prop_D1Huff Small_Model Prop_Small Bohe_Model Bohe_Proofs.
Import ListNotations.
Open Scope N_scope.
Open Scope py_scope.

Lemma bohe_new_good is_request h : bohe_new is_request = Ok h -> exists ws, good h ws /\ 256 < lenN ws /\ forall c, c < 257 -> d1_word h c = word_of ws c.
Proof.
  intros E. unfold bohe_new in E. destruct (built_numbered _ _ E) as (ws & G & Hl & _). exists ws. split; [exact G|].
  assert (Hn : length ws = 257%nat) by (rewrite Hl; destruct is_request; reflexivity). split; [unfold lenN; rewrite Hn; reflexivity|].
  intros c Hc. unfold d1_word. rewrite (g_codes _ _ G), nth_error_map, (nth_error_nth' ws [] (n := N.to_nat c)) by lia. cbn [option_map].
  unfold word_bits, enc. cbn [fst snd]. apply firstn_bytes_of_bits.
Qed.

(** ** C56: what the output says *)

(** A registered header (one of the 57 of the table) that has a binary encoder
    is sent as the encoder's octets; every other header is sent as its text. *)
Definition registered (k : str) : Prop := In k id_table.
Definition binary (L : library) (k : str) : Prop := registered k /\ encoder L k <> None.
Definition encoded (L : library) (k v : str) : res str := match encoder L k with Some e => e v | None => Ok v end.

(** Names and values are byte strings, and encoders return byte strings. *)
Definition octets (L : library) (kv : str * str) : Prop :=
  is_bytes (fst kv) /\ is_bytes (snd kv) /\ forall s, encoded L (fst kv) (snd kv) = Ok s -> is_bytes s.
(** Names that are not registered have fewer than 128 octets; binary values take
    a multiple of four octets. *)
Definition expressible (L : library) (kv : str * str) : Prop :=
  (~ registered (fst kv) -> lenN (fst kv) < 128) /\
  (binary L (fst kv) -> forall s, encoded L (fst kv) (snd kv) = Ok s -> lenN s mod 4 = 0).

Lemma registered_index k : registered k <-> exists i, index_of k id_table = Some i.
Proof.
  unfold registered. split.
  - intros H. destruct (index_of k id_table) as [i|] eqn:E; [eauto|]. apply index_of_none in E. contradiction.
  - intros [i E]. apply index_of_some in E. eapply nth_error_In, E.
Qed.
Lemma sent_encoded L k v : binary L k -> sent L k v = encoded L k v.
Proof. intros [Hr He]. apply registered_index in Hr. destruct Hr as [i Ei]. unfold sent, encoded. rewrite Ei. destruct (encoder L k); [reflexivity|congruence]. Qed.
Lemma sent_plain L k v : ~ binary L k -> sent L k v = Ok v.
Proof.
  intros H. unfold sent. destruct (index_of k id_table) as [i|] eqn:Ei; [|reflexivity]. destruct (encoder L k) eqn:Ee; [|reflexivity].
  exfalso. apply H. split; [apply registered_index; eauto|congruence].
Qed.
Lemma binary_dec L k : {binary L k} + {~ binary L k}.
Proof.
  destruct (index_of k id_table) as [i|] eqn:Ei.
  - destruct (encoder L k) eqn:Ee.
    + left. split; [apply registered_index; eauto|congruence].
    + right. intros [_ H]. congruence.
  - right. intros [H _]. apply index_of_none in Ei. contradiction.
Qed.
Lemma octets_kv L kv : octets L kv -> kv_bytes L kv.
Proof.
  destruct kv as [k v]. intros (Hk & Hv & Hs). cbn [fst snd] in *. split; [exact Hk|]. split; [exact Hv|]. cbn [fst snd]. intros s E.
  destruct (binary_dec L k) as [B|B].
  - rewrite sent_encoded in E by exact B. now apply Hs.
  - rewrite sent_plain in E by exact B. congruence.
Qed.
Lemma expressible_readable L kv : expressible L kv -> readable L kv.
Proof.
  destruct kv as [k v]. intros [H1 H2]. cbn [fst snd] in *. unfold readable. cbn [fst snd]. destruct (index_of k id_table) as [i|] eqn:Ei.
  - destruct (encoder L k) eqn:Ee; [|exact I]. assert (B : binary L k) by (split; [apply registered_index; eauto|congruence]).
    intros s Es. rewrite sent_encoded in Es by exact B. now apply H2.
  - apply H1. apply index_of_none, Ei.
Qed.

(** Two dictionaries with the same output have the same names in the same order,
    the same values where the value is sent as text, and values with the same
    encoding where it is sent as octets. *)
Theorem C56_output_determines_headers : forall is_request h L d d' out, bohe_new is_request = Ok h ->
  Forall (octets L) d -> Forall (octets L) d' -> Forall (expressible L) d -> Forall (expressible L) d' ->
  bohe_compress L h d = Ok out -> bohe_compress L h d' = Ok out ->
  Forall2 (fun a b => fst a = fst b /\ (~ binary L (fst a) -> snd a = snd b) /\
                      (binary L (fst a) -> encoded L (fst a) (snd a) = encoded L (fst b) (snd b))) d d'.
Proof.
  intros is_request h L d d' out Eh Ho Ho' He He' E E'. destruct (bohe_new_good _ _ Eh) as (ws & G & H256 & _).
  assert (F : Forall2 (same_sent L) d d').
  { eapply (compress_unique L h ws G H256); [| | | |exact E|exact E'].
    - exact (Forall_impl _ (octets_kv L) Ho).
    - exact (Forall_impl _ (octets_kv L) Ho').
    - exact (Forall_impl _ (expressible_readable L) He).
    - exact (Forall_impl _ (expressible_readable L) He'). }
  clear -F. induction F as [|[k v] [k' v'] d d' [H1 H2] F IH]; [constructor|]. cbn [fst snd] in *. subst k'. constructor; [|exact IH]. cbn [fst snd].
  split; [reflexivity|]. split; intros B.
  - rewrite !sent_plain in H2 by exact B. congruence.
  - rewrite <- !sent_encoded by exact B. exact H2.
Qed.
Print Assumptions C56_output_determines_headers.

(** In particular: without binary headers, the output determines the headers. *)
Theorem C56_text_headers_determined : forall is_request h L d d' out, bohe_new is_request = Ok h ->
  (forall k v, In (k, v) (d ++ d') -> is_bytes k /\ is_bytes v /\ encoder L k = None /\ (registered k \/ lenN k < 128)) ->
  bohe_compress L h d = Ok out -> bohe_compress L h d' = Ok out -> d = d'.
Proof.
  intros is_request h L d d' out Eh Hin E E'.
  assert (A : forall e, incl e (d ++ d') -> Forall (octets L) e /\ Forall (expressible L) e).
  { intros e He. split; apply Forall_forall; intros [k v] Hk; apply He, Hin in Hk; destruct Hk as (Hk & Hv & Hn & Hl).
    - split; [exact Hk|]. split; [exact Hv|]. cbn [fst snd]. unfold encoded. rewrite Hn. congruence.
    - split; cbn [fst snd]; [intros C; tauto|]. intros [_ C]. congruence. }
  destruct (A d) as [O1 X1]; [apply incl_appl, incl_refl|]. destruct (A d') as [O2 X2]; [apply incl_appr, incl_refl|].
  pose proof (C56_output_determines_headers _ _ _ _ _ _ Eh O1 O2 X1 X2 E E') as F.
  assert (P : forall k v, In (k, v) d -> ~ binary L k).
  { intros k v Hk [_ C]. destruct (Hin k v) as (_ & _ & Hn & _); [apply in_or_app; now left|]. congruence. }
  clear -F P. induction F as [|[k v] [k' v'] d d' (H1 & H2 & _) F IH]; [reflexivity|]. cbn [fst snd] in *. subst k'.
  f_equal; [|apply IH; intros; eapply P; right; eassumption]. f_equal. apply H2. eapply P. left. reflexivity.
Qed.
Print Assumptions C56_text_headers_determined.

(** A library for examples. *)
Definition some_library : library :=
  mk_library (fun s => if str_eqb s (lit "Tue, 01 Jan 2013 00:00:00 GMT") then Some 1356998400%Z else None) (fun s => s)
    (fun s => [(s, true)]) (fun _ => []) (fun s => Ok s) (fun s => Ok s).

Example C56_example :
  let d := [(lit ":path", lit "/index.html"); (lit ":method", lit "PATH"); (lit "x-custom", [0; 255]); (lit "server", [])] in
  Forall (octets some_library) d /\ Forall (expressible some_library) d /\ binary some_library (lit ":method") /\ ~ binary some_library (lit "x-custom") /\
  exists h out, bohe_new true = Ok h /\ bohe_compress some_library h d = Ok out /\ lenN out = 48.
Proof.
  cbv zeta. split; [|split; [|split; [|split]]].
  - repeat constructor; cbn [fst snd]; try (vm_compute; reflexivity).
    all: intros s E; vm_compute in E; match type of E with Ok ?x = Ok _ => assert (s = x) by congruence; subst s end; repeat constructor.
  - repeat constructor; cbn [fst snd].
    all: try (intros C; vm_compute; reflexivity).
    all: try (intros C; exfalso; apply C; vm_compute; tauto).
    all: intros B s E; try (destruct B as [_ B]; exfalso; apply B; reflexivity).
    all: vm_compute in E; match type of E with Ok ?x = Ok _ => assert (s = x) by congruence; subst s end; reflexivity.
  - split; [vm_compute; tauto|vm_compute; discriminate].
  - intros [H _]. apply index_of_none in H; [exact H|]. vm_compute. reflexivity.
  - do 2 eexists. split; [vm_compute; reflexivity|]. split; vm_compute; reflexivity.
Qed.

(** *** Names of 128 and more octets: the length octet is 128 | len *)
Theorem C56_long_name_refuted : exists h d d' out, bohe_new true = Ok h /\ d <> d' /\
  (forall L, bohe_compress L h d = Ok out) /\ (forall L, bohe_compress L h d' = Ok out) /\
  forall L k v, In (k, v) (d ++ d') -> is_bytes k /\ is_bytes v /\ encoder L k = None /\ lenN k < 256.
Proof.
  set (d' := [(lit "xy", repeat 101 43 ++ [98]); (repeat 107 100, lit "v")]).
  destruct (bohe_new true) as [h|] eqn:Eh; [|vm_compute in Eh; discriminate].
  assert (Eh' : h = match bohe_new true with Ok h => h | Err _ => h end) by (rewrite Eh; reflexivity).
  set (o := match bohe_compress some_library h d' with Ok o => o | Err _ => [] end).
  exists h, [(firstn 130 (skipn 1 o), lit "v")], d', o.
  subst o. rewrite Eh'. clear Eh Eh'. split; [reflexivity|]. split; [vm_compute; discriminate|]. split; [intros L; vm_compute; reflexivity|].
  split; [intros L; vm_compute; reflexivity|].
  intros L k v Hin. vm_compute in Hin. destruct Hin as [E|[E|[E|[]]]]; injection E as <- <-; (split; [repeat constructor|]); (split; [repeat constructor|]); split; vm_compute; reflexivity.
Qed.
Print Assumptions C56_long_name_refuted.

(** *** Binary values: the length field keeps only a quarter of the length *)
Theorem C56_binary_length_refuted : exists h d d' out, bohe_new true = Ok h /\ d <> d' /\
  (forall L, bohe_compress L h d = Ok out) /\ (forall L, bohe_compress L h d' = Ok out) /\
  forall k v, In (k, v) (d ++ d') -> is_bytes k /\ is_bytes v /\ lenN k < 128.
Proof.
  destruct (bohe_new true) as [h|] eqn:Eh; [|vm_compute in Eh; discriminate].
  assert (Eh' : h = match bohe_new true with Ok h => h | Err _ => h end) by (rewrite Eh; reflexivity).
  exists h, [(lit ":method", lit "x"); (lit "content-length", lit "0" ++ [0] ++ lit "32")], [(lit ":method", lit "x" ++ [14]); ([], [])],
    [8; 128; 0; 0; 0; 120; 14; 128; 0; 0; 0; 0; 32].
  split; [reflexivity|]. split; [vm_compute; discriminate|]. rewrite Eh'. clear Eh Eh'. split; [intros L; vm_compute; reflexivity|].
  split; [intros L; vm_compute; reflexivity|].
  intros k v Hin. vm_compute in Hin. destruct Hin as [E|[E|[E|[E|[]]]]]; injection E as <- <-; (split; [repeat constructor|]); (split; [repeat constructor|]); vm_compute; reflexivity.
Qed.
Print Assumptions C56_binary_length_refuted.

(** ** C57: what the binary encodings keep of a value *)

(** *** Not everything: directives of cache-control, signs and leading zeros of
    numbers, texts that are no dates. *)
Theorem C57_binary_values_refuted : exists k v v', v <> v' /\ registered k /\
  forall L h, bohe_compress L h [(k, v)] = bohe_compress L h [(k, v')].
Proof.
  exists (lit "cache-control"), (lit "no-store"), (lit "private, s-maxage=60"). split; [vm_compute; discriminate|]. split; [vm_compute; tauto|].
  intros L h. unfold bohe_compress. cbn [bohe_headers bohe_header]. f_equal.
Qed.
Print Assumptions C57_binary_values_refuted.

Example C57_more_losses : forall L,
  encoded L (lit "content-length") (lit "007") = encoded L (lit "content-length") (lit " +7 ") /\
  encoded L (lit ":status") (lit "-1") = encoded L (lit ":status") (lit "0") /\
  (lib_date L (lit "soon") = None -> lib_date L (lit "Thu") = None -> encoded L (lit "expires") (lit "soon") = encoded L (lit "expires") (lit "Thu")) /\
  encoded L (lit ":method") (lit "get") = encoded L (lit ":method") [1].
Proof.
  intros L. split; [vm_compute; reflexivity|]. split; [vm_compute; reflexivity|]. split; [|vm_compute; reflexivity].
  intros E E'. unfold encoded. change (encoder L (lit "expires")) with (Some (enc_date L)). unfold enc_date. rewrite E, E'. reflexivity.
Qed.

(** *** Numbers *)

(** A number in the usual notation: digits, the first of them not 0 unless it is
    the only one. *)
Definition digit (c : N) : Prop := 48 <= c <= 57.
Definition plain_number (s : str) : Prop :=
  Forall digit s /\ match s with [] => False | [_] => True | c :: _ => c <> 48 end.
(** Its value, digit by digit. *)
Fixpoint value_of (s : str) : N := match s with [] => 0 | c :: r => (c - 48) * 10 ^ lenN r + value_of r end.

Lemma dec_value_of s : forall a, fold_left (fun a c => (10 * a + Z.of_N (c - 48))%Z) s a = (a * Z.of_N (10 ^ lenN s) + Z.of_N (value_of s))%Z.
Proof.
  induction s as [|c s IH]; intros a; cbn [fold_left value_of].
  - unfold lenN. cbn [length]. change (Z.of_N (10 ^ N.of_nat 0)) with 1%Z. lia.
  - rewrite IH. replace (lenN (c :: s)) with (N.succ (lenN s)) by (unfold lenN; cbn [length]; lia). rewrite N.pow_succ_r'.
    set (p := 10 ^ lenN s). rewrite !N2Z.inj_add, !N2Z.inj_mul. nia.
Qed.
Lemma digits_forallb s : Forall digit s <-> forallb is_digit s = true.
Proof.
  rewrite forallb_forall, Forall_forall. unfold digit, is_digit. split; intros H c Hc; specialize (H c Hc).
  - apply andb_true_iff. split; apply N.leb_le; lia.
  - apply andb_true_iff in H. destruct H as [H1 H2]. apply N.leb_le in H1, H2. lia.
Qed.
Lemma digit_not_space c : digit c -> is_space c = false.
Proof. unfold digit, is_space. intros H. destruct (N.eqb_spec c 32); [lia|]. destruct (N.leb_spec 9 c), (N.leb_spec c 13); cbn; lia. Qed.
Lemma digits_no_ends s : Forall digit s -> strip is_space s = s.
Proof.
  intros H. apply strip_id. unfold no_ends. split.
  - destruct H; [exact I|]. now apply digit_not_space.
  - apply Forall_rev in H. destruct H; [exact I|]. now apply digit_not_space.
Qed.
Lemma py_int_digits s : s <> [] -> Forall digit s -> py_int s = Ok (Z.of_N (value_of s)).
Proof.
  intros Hn H. unfold py_int. rewrite digits_no_ends by exact H. destruct s as [|c s]; [congruence|].
  assert (E : match c :: s with [] => Err ValueError | _ => if forallb is_digit (c :: s) then Ok (dec_value (c :: s)) else Err ValueError end = Ok (Z.of_N (value_of (c :: s)))).
  { rewrite (proj1 (digits_forallb _) H). unfold dec_value. rewrite dec_value_of. reflexivity. }
  inversion H as [|? ? Hc _]; subst. unfold digit in Hc.
  destruct c as [|p]; [lia|]. do 6 (destruct p as [p|p|]; try lia; try exact E).
Qed.

Lemma value_of_bound s : Forall digit s -> value_of s < 10 ^ lenN s.
Proof.
  induction 1 as [|c s Hc Hs IH]; [vm_compute; reflexivity|]. cbn [value_of]. replace (lenN (c :: s)) with (N.succ (lenN s)) by (unfold lenN; cbn [length]; lia).
  rewrite N.pow_succ_r'. unfold digit in Hc. nia.
Qed.
Lemma value_of_inj_len s : forall t, length s = length t -> Forall digit s -> Forall digit t -> value_of s = value_of t -> s = t.
Proof.
  induction s as [|c s IH]; intros [|e t] Hl Hs Ht E; cbn [length] in Hl; try discriminate; [reflexivity|].
  inversion Hs; inversion Ht; subst. cbn [value_of] in E. assert (El : lenN s = lenN t) by (unfold lenN; lia). rewrite El in E.
  pose proof (value_of_bound s ltac:(assumption)) as B1. pose proof (value_of_bound t ltac:(assumption)) as B2. rewrite El in B1.
  set (p := 10 ^ lenN t) in *. unfold digit in *. assert (c = e) by nia. subst e. f_equal. apply IH; [lia|assumption|assumption|lia].
Qed.
Lemma plain_number_low c s : c <> 48 -> Forall digit (c :: s) -> 10 ^ lenN s <= value_of (c :: s).
Proof. intros Hc H. inversion H; subst. unfold digit in *. cbn [value_of]. set (p := 10 ^ lenN s). nia. Qed.
Lemma value_of_inj s t : plain_number s -> plain_number t -> value_of s = value_of t -> s = t.
Proof.
  assert (G : forall s t, plain_number s -> plain_number t -> value_of s = value_of t -> (length s <= length t)%nat -> s = t).
  { clear. intros s t [Ds Hs] [Dt Ht] E Hl. destruct (Nat.eq_dec (length s) (length t)) as [El|El]; [now apply value_of_inj_len|]. exfalso.
    destruct t as [|c [|c' t]]; [destruct s; cbn [length] in *; lia| |].
    - destruct s; [exact Hs|cbn [length] in *; lia].
    - pose proof (plain_number_low c (c' :: t) Ht Dt) as B. pose proof (value_of_bound s Ds) as B2. rewrite E in B2.
      assert (10 ^ lenN s <= 10 ^ lenN (c' :: t)); [|lia]. apply N.pow_le_mono_r; [lia|]. unfold lenN. cbn [length] in *. lia. }
  intros Hs Ht E. destruct (Nat.le_ge_cases (length s) (length t)); [now apply G|]. symmetry. apply G; auto.
Qed.

Lemma uvarint_of_nat n : uvarint_of (Z.of_N n) = uvarint_loop (S (N.to_nat (N.size n))) n.
Proof. unfold uvarint_of. rewrite Z.max_r by lia. now rewrite N2Z.id. Qed.
Lemma uvarint_of_ok z : exists s, uvarint_of z = Ok s /\ is_bytes s /\ s <> [].
Proof.
  unfold uvarint_of. destruct (C41_uvarint_reads_back (Z.to_N (Z.max 0 z))) as (s & E & Hb & Hr). exists s. split; [exact E|]. split; [exact Hb|].
  intros ->. specialize (Hr []). discriminate.
Qed.
Lemma uvarint_of_inj a b s t ra rb : uvarint_of a = Ok s -> uvarint_of b = Ok t -> s ++ ra = t ++ rb -> Z.max 0 a = Z.max 0 b /\ ra = rb.
Proof. unfold uvarint_of. intros E1 E2 E. destruct (C41_uvarint_unique _ _ _ _ _ _ _ _ E1 E2 E) as [H ->]. split; [lia|reflexivity]. Qed.
Lemma uvarints_inj a : forall b s, uvarints a = Ok s -> uvarints b = Ok s -> map (Z.max 0) a = map (Z.max 0) b.
Proof.
  assert (N0 : forall z l s, uvarints (z :: l) = Ok s -> s <> []).
  { clear. intros z l s H. cbn [uvarints] in H. apply bind_ok in H. destruct H as (u & E & H). apply bind_ok in H. destruct H as (w & _ & H).
    destruct (uvarint_of_ok z) as (u' & E' & _ & Hn). intros ->. assert (u = u') by congruence. subst. assert (u' ++ w = []) by congruence. apply app_eq_nil in H0. tauto. }
  induction a as [|x a IH]; intros [|y b] s Ea Eb; [reflexivity| | |].
  - exfalso. apply (N0 _ _ _ Eb). cbn [uvarints] in Ea. congruence.
  - exfalso. apply (N0 _ _ _ Ea). cbn [uvarints] in Eb. congruence.
  - cbn [uvarints] in Ea, Eb. apply bind_ok in Ea. destruct Ea as (u & E1 & Ea). apply bind_ok in Ea. destruct Ea as (w & E2 & Ea).
    apply bind_ok in Eb. destruct Eb as (u' & F1 & Eb). apply bind_ok in Eb. destruct Eb as (w' & F2 & Eb).
    assert (E : u ++ w = u' ++ w') by congruence. destruct (uvarint_of_inj _ _ _ _ _ _ E1 F1 E) as [H ->]. cbn [map]. f_equal; [exact H|]. eapply IH; eassumption.
Qed.

(** Lists of plain numbers, one or several (separated by NUL). *)
Fixpoint nul_list (l : list str) : str := match l with [] => [] | [x] => x | x :: r => x ++ [0] ++ nul_list r end.
Lemma split_nul_list l : l <> [] -> Forall (Forall digit) l -> split_on 0 (nul_list l) = l.
Proof.
  assert (S : forall x, Forall digit x -> split_on 0 x = [x]).
  { induction 1 as [|c x Hc Hx IH]; [reflexivity|]. cbn [split_on]. unfold digit in Hc. destruct (N.eqb_spec c 0); [lia|]. now rewrite IH. }
  assert (C : forall x y, Forall digit x -> split_on 0 (x ++ 0 :: y) = x :: split_on 0 y).
  { induction 1 as [|c x Hc Hx IH]; [reflexivity|]. cbn [app split_on]. unfold digit in Hc. destruct (N.eqb_spec c 0); [lia|]. now rewrite IH. }
  intros Hn H. induction H as [|x l Hx Hl IH]; [congruence|]. destruct l as [|y l]; [now apply S|].
  change (nul_list (x :: y :: l)) with (x ++ 0 :: nul_list (y :: l)). rewrite C by exact Hx. now rewrite IH by congruence.
Qed.
Lemma map_res_ok {A B} (f : A -> res B) g l : (forall x, In x l -> f x = Ok (g x)) -> map_res f l = Ok (map g l).
Proof. induction l as [|x l IH]; intros H; [reflexivity|]. cbn [map_res map]. rewrite H by now left. cbn [bind]. rewrite IH by (intros; apply H; now right). reflexivity. Qed.
Lemma enc_uvarint_numbers l : l <> [] -> Forall plain_number l -> enc_uvarint (nul_list l) = uvarints (map (fun s => Z.of_N (value_of s)) l).
Proof.
  intros Hn H. unfold enc_uvarint.
  assert (Hd : Forall (Forall digit) l) by (eapply Forall_impl; [|exact H]; intros s [Hs _]; exact Hs).
  destruct (nul_list l) as [|c r] eqn:E.
  - exfalso. destruct l as [|x l]; [congruence|]. inversion H as [|? ? [_ Hx] _]; subst. destruct l; cbn [nul_list] in E; [subst x; exact Hx|].
    apply app_eq_nil in E. destruct E as [_ E]. discriminate.
  - rewrite <- E, split_nul_list by assumption. rewrite (map_res_ok _ (fun s => Z.of_N (value_of s))); [reflexivity|].
    intros s Hs. rewrite Forall_forall in H. destruct (H s Hs) as [Ds Dn]. apply py_int_digits; [|exact Ds]. intros ->. exact Dn.
Qed.

(** The numeric headers keep lists of numbers apart. *)
Theorem C57_numbers_kept : forall L k l l', In k [lit ":status"; lit "content-length"; lit "age"] ->
  l <> [] -> l' <> [] -> Forall plain_number l -> Forall plain_number l' ->
  (exists s, encoded L k (nul_list l) = Ok s) /\
  (encoded L k (nul_list l) = encoded L k (nul_list l') -> l = l').
Proof.
  intros L k l l' Hk Hn Hn' H H'.
  assert (Ek : forall v, encoded L k v = enc_uvarint v) by (intros v; destruct Hk as [<-|[<-|[<-|[]]]]; reflexivity).
  rewrite !Ek, !enc_uvarint_numbers by assumption.
  assert (Ok1 : forall l, exists s, uvarints l = Ok s).
  { clear. induction l as [|z l [s E]]; [eexists; reflexivity|]. cbn [uvarints]. destruct (uvarint_of_ok z) as (u & -> & _). rewrite E. eexists; reflexivity. }
  split; [apply Ok1|]. intros E. destruct (Ok1 (map (fun s => Z.of_N (value_of s)) l)) as [s Es].
  pose proof Es as Es'. rewrite E in Es'. pose proof (uvarints_inj _ _ s Es Es') as M. rewrite !map_map in M.
  clear -M H H'. revert l' M H'. induction H as [|x l Hx Hl IH]; intros [|y l'] M H'; cbn [map] in M; try discriminate; [reflexivity|].
  injection M as M1 M. inversion H'; subst. f_equal; [|apply IH; assumption]. apply value_of_inj; [assumption|assumption|lia].
Qed.
Print Assumptions C57_numbers_kept.

Example C57_numbers_example : Forall plain_number [lit "200"; lit "0"] /\
  encoded some_library (lit "content-length") (nul_list [lit "200"; lit "0"]) = Ok [200; 1; 0].
Proof. split; [repeat constructor; vm_compute; discriminate|vm_compute; reflexivity]. Qed.

(** *** Methods: distinct texts without control characters stay distinct. *)
Lemma index_of_small v i : index_of v methods = Some i -> i < 7.
Proof. intros E. apply index_of_some in E. apply E. Qed.
Theorem C57_methods_kept : forall L v v', Forall (fun c => 32 <= c) v -> Forall (fun c => 32 <= c) v' ->
  encoded L (lit ":method") v = encoded L (lit ":method") v' -> v = v'.
Proof.
  intros L v v' H H' E. change (Ok (enc_method v) = Ok (enc_method v')) in E. assert (E1 : enc_method v = enc_method v') by congruence. clear E. unfold enc_method in E1.
  destruct (index_of v methods) as [i|] eqn:Ei, (index_of v' methods) as [j|] eqn:Ej.
  - assert (i = j) by (assert (i + 1 = j + 1) by congruence; lia). subst. eapply index_of_inj; eassumption.
  - exfalso. apply index_of_small in Ei. subst v'. inversion H'; subst. lia.
  - exfalso. apply index_of_small in Ej. subst v. inversion H; subst. lia.
  - exact E1.
Qed.
Print Assumptions C57_methods_kept.

(** *** Dates: different seconds from 1990 on stay different. *)
Theorem C57_dates_kept : forall L k v v' t t', In k [lit "date"; lit "expires"; lit "last-modified"; lit "if-modified-since"] ->
  lib_date L v = Some t -> lib_date L v' = Some t' -> (631152000 <= t)%Z -> (631152000 <= t')%Z ->
  encoded L k v = encoded L k v' -> t = t'.
Proof.
  intros L k v v' t t' Hk Ht Ht' H H' E.
  assert (Ek : forall v, encoded L k v = enc_date L v) by (intros w; destruct Hk as [<-|[<-|[<-|[<-|[]]]]]; reflexivity).
  rewrite !Ek in E. unfold enc_date in E. rewrite Ht, Ht' in E. destruct (uvarint_of_ok (t - new_epoch)) as (s & Es & _). destruct (uvarint_of_ok (t' - new_epoch)) as (s' & Es' & _).
  assert (s = s') by congruence. subst s'. destruct (uvarint_of_inj _ _ _ _ [] [] Es Es' eq_refl) as [M _]. unfold new_epoch in *. lia.
Qed.
Print Assumptions C57_dates_kept.
Example C57_dates_example : lib_date some_library (lit "Tue, 01 Jan 2013 00:00:00 GMT") = Some 1356998400%Z /\
  encoded some_library (lit "date") (lit "Tue, 01 Jan 2013 00:00:00 GMT") = Ok [128; 147; 142; 218; 2].
Proof. split; vm_compute; reflexivity. Qed.

(** ** C58: when compress raises *)

(** The length of a text in the Huffman code, with the end marker, in bits and in
    octets. *)
Definition coded_bits (h : huffman) (v : str) : N := fold_right (fun c n => lenN (d1_word h c) + n) 0 (v ++ [256]).
Definition octets_of_bits (n : N) : N := (n + 7) / 8.

Definition writable (L : library) (h : huffman) (kv : str * str) : Prop :=
  (~ registered (fst kv) -> lenN (fst kv) < 256) /\
  (binary L (fst kv) -> exists s, encoded L (fst kv) (snd kv) = Ok s /\ lenN s < 2 ^ 32) /\
  (~ binary L (fst kv) -> octets_of_bits (coded_bits h (snd kv)) < 2 ^ 32).

Section Lengths.
  Variables (h : huffman) (ws : list (list bool)).
  Hypothesis (Hw : forall c, c < 257 -> d1_word h c = word_of ws c).
  Lemma coded_len v : is_bytes v -> coded_bits h v = lenN (text_code ws v).
  Proof.
    intros H. unfold coded_bits, text_code. induction H as [|c v Hc Hv IH]; cbn [app fold_right bits_for flat_map].
    - rewrite Hw by reflexivity. lia.
    - rewrite IH, Hw by lia. unfold lenN. rewrite !app_length. unfold bits_for. lia.
  Qed.
  Lemma octets_len s : octets_of_bits (lenN s) = lenN (bytes_of_bits s).
  Proof.
    unfold octets_of_bits, lenN. rewrite bytes_of_bits_len. unfold bytes_for. rewrite Nat2N.inj_div, Nat2N.inj_add. reflexivity.
  Qed.
  Lemma text_octets_len v : is_bytes v -> text_octets ws v = octets_of_bits (coded_bits h v).
  Proof. intros H. unfold text_octets. rewrite coded_len by exact H. symmetry. apply octets_len. Qed.
End Lengths.

Lemma writable_error L h ws k v : (forall c, c < 257 -> d1_word h c = word_of ws c) -> octets L (k, v) ->
  writable L h (k, v) <-> kv_error L ws (k, v) = None.
Proof.
  intros Hw (_ & Hv & _). cbn [fst snd] in *. unfold writable, kv_error. cbn [fst snd].
  rewrite <- (text_octets_len h ws Hw v Hv). destruct (binary_dec L k) as [B|B].
  - rewrite sent_encoded by exact B. pose proof B as [R Ne]. destruct (proj1 (registered_index k) R) as [i ->].
    destruct (encoder L k) as [e|] eqn:Ee; [|congruence]. unfold encoded. rewrite Ee. destruct (e v) as [s|x].
    + destruct (N.ltb_spec (lenN s) (2 ^ 32)); split; try discriminate; try reflexivity; try tauto.
      * intros _. split; [tauto|]. split; [eauto|tauto].
      * intros (_ & H1 & _). destruct (H1 B) as (s' & E & Hl). assert (s = s') by congruence. subst. lia.
    + split; [|discriminate]. intros (_ & H1 & _). destruct (H1 B) as (s' & E & _). discriminate.
  - rewrite sent_plain by exact B. destruct (index_of k id_table) as [i|] eqn:Ei.
    + assert (R : registered k) by (apply registered_index; eauto). destruct (encoder L k) eqn:Ee; [exfalso; apply B; split; [exact R|congruence]|].
      destruct (N.ltb_spec (text_octets ws v) (2 ^ 32)); split; try discriminate; try reflexivity; try tauto.
      intros (_ & _ & H1). specialize (H1 B). lia.
    + assert (R : ~ registered k) by (apply index_of_none, Ei).
      replace (if (lenN k <? 256) && (text_octets ws v <? 2 ^ 32) then None else Some StructError) with
        (if (lenN k <? 256) && (text_octets ws v <? 2 ^ 32) then None else Some StructError) by reflexivity.
      destruct (N.ltb_spec (lenN k) 256), (N.ltb_spec (text_octets ws v) (2 ^ 32)); cbn [andb];
        (split; [|first [discriminate | intros _; split; [tauto|split; [tauto|tauto]]]]); intros (H1 & _ & H2); specialize (H1 R); specialize (H2 B); try reflexivity; lia.
Qed.

Lemma first_error_none L ws d : first_error L ws d = None <-> Forall (fun kv => kv_error L ws kv = None) d.
Proof.
  induction d as [|kv d IH]; cbn [first_error]; [split; [constructor|reflexivity]|]. destruct (kv_error L ws kv) eqn:E.
  - split; [discriminate|]. intros H. inversion H; congruence.
  - rewrite IH. split; [now constructor|]. intros H. now inversion H.
Qed.
Lemma first_error_some L ws d e : first_error L ws d = Some e -> exists kv, In kv d /\ kv_error L ws kv = Some e.
Proof.
  induction d as [|kv d IH]; cbn [first_error]; [discriminate|]. destruct (kv_error L ws kv) eqn:E.
  - intros H. exists kv. split; [now left|congruence].
  - intros H. destruct (IH H) as (kv' & Hin & Hk). exists kv'. split; [now right|exact Hk].
Qed.

(** Compressing succeeds exactly when every header can be written; otherwise it
    raises struct.error or what an encoder raised. *)
Theorem C58_when_compress_raises : forall is_request h L d, bohe_new is_request = Ok h -> Forall (octets L) d ->
  ((exists out, bohe_compress L h d = Ok out) <-> Forall (writable L h) d) /\
  forall e, bohe_compress L h d = Err e -> e = StructError \/ exists k v, In (k, v) d /\ binary L k /\ encoded L k v = Err e.
Proof.
  intros is_request h L d Eh Hd. destruct (bohe_new_good _ _ Eh) as (ws & G & H256 & Hw).
  pose proof (compress_ok L h ws G H256 d (Forall_impl _ (octets_kv L) Hd)) as C.
  assert (W : Forall (writable L h) d <-> first_error L ws d = None).
  { rewrite first_error_none. rewrite !Forall_forall. split; intros H [k v] Hin; specialize (H _ Hin); rewrite Forall_forall in Hd;
      apply (writable_error L h ws k v Hw (Hd _ Hin)); exact H. }
  rewrite W. destruct (first_error L ws d) as [e|] eqn:Ef.
  - split; [split; [intros [o E]; congruence|discriminate]|]. intros e' E'. assert (e' = e) by congruence. subst e'.
    destruct (first_error_some _ _ _ _ Ef) as ([k v] & Hin & Ek). unfold kv_error in Ek. destruct (binary_dec L k) as [B|B].
    + rewrite sent_encoded in Ek by exact B. destruct (encoded L k v) as [s|x] eqn:Ex.
      * left. pose proof B as [R Ne]. destruct (proj1 (registered_index k) R) as [i Ei]. rewrite Ei in Ek. destruct (encoder L k); [|congruence].
        destruct (lenN s <? 2 ^ 32); congruence.
      * right. exists k, v. split; [exact Hin|]. split; [exact B|]. congruence.
    + rewrite sent_plain in Ek by exact B. left. destruct (index_of k id_table); [destruct (encoder L k)|].
      * destruct (lenN v <? 2 ^ 32); congruence.
      * destruct (text_octets ws v <? 2 ^ 32); congruence.
      * destruct ((lenN k <? 256) && (text_octets ws v <? 2 ^ 32)); congruence.
  - destruct C as (X & _ & E). split; [split; [reflexivity|intros _; eauto]|]. intros e E'. congruence.
Qed.
Print Assumptions C58_when_compress_raises.

(** Which texts are numbers: white space, at most one sign, digits, white space. *)
Definition number_text (s : str) : Prop := exists a sign ds b,
  s = a ++ sign ++ ds ++ b /\ Forall (fun c => is_space c = true) a /\ Forall (fun c => is_space c = true) b /\
  In sign [[]; lit "+"; lit "-"] /\ ds <> [] /\ Forall digit ds.

Lemma py_int_iff s : (number_text s -> exists z, py_int s = Ok z) /\ (~ number_text s -> py_int s = Err ValueError).
Proof.
  assert (D : forall d, match d with [] => Err ValueError | _ => if forallb is_digit d then Ok (dec_value d) else Err ValueError end =
     if match d with [] => false | _ => forallb is_digit d end then Ok (dec_value d) else Err ValueError) by (intros [|c d]; reflexivity).
  assert (NN : forall ds, ds <> [] -> Forall digit ds -> match ds with [] => false | _ => forallb is_digit ds end = true).
  { intros [|c ds] Hn H; [congruence|]. now apply digits_forallb. }
  split.
  - intros (a & sign & ds & b & -> & Ha & Hb & Hs & Hn & Hd). unfold py_int.
    assert (Es : strip is_space (a ++ sign ++ ds ++ b) = sign ++ ds).
    { rewrite (app_assoc sign ds b). apply strip_unique; [exact Ha|exact Hb|]. split.
      - destruct Hs as [<-|[<-|[<-|[]]]]; cbn [app lit map list_ascii_of_string]; try reflexivity.
        destruct Hd; [congruence|]. now apply digit_not_space.
      - rewrite rev_app_distr. pose proof (Forall_rev Hd) as Hr. destruct (rev ds) eqn:E; [apply (f_equal (@rev _)) in E; rewrite rev_involutive in E; cbn in E; congruence|].
        cbn [app]. inversion Hr; subst. now apply digit_not_space. }
    rewrite Es. destruct Hs as [<-|[<-|[<-|[]]]].
    + cbn [app]. exists (Z.of_N (value_of ds)). pose proof (py_int_digits ds Hn Hd) as E. unfold py_int in E. rewrite digits_no_ends in E by exact Hd. exact E.
    + change (lit "+" ++ ds) with (43 :: ds). cbv iota. rewrite D, NN by assumption. eauto.
    + change (lit "-" ++ ds) with (45 :: ds). cbv iota. rewrite D, NN by assumption. cbn [bind]. eauto.
  - intros H. unfold py_int. destruct (strip_spec is_space s) as (a & b & Es & Ha & Hb & _).
    assert (K : forall sign d, In sign [[]; lit "+"; lit "-"] -> strip is_space s = sign ++ d -> match d with [] => false | _ => forallb is_digit d end = false).
    { intros sign d Hs E. destruct d as [|c d]; [reflexivity|]. destruct (forallb is_digit (c :: d)) eqn:Ed; [|reflexivity]. exfalso. apply H.
      exists a, sign, (c :: d), b. split; [rewrite <- app_assoc in Es || idtac; rewrite Es at 1; rewrite E, <- ?app_assoc; reflexivity|].
      split; [exact Ha|]. split; [exact Hb|]. split; [exact Hs|]. split; [congruence|]. now apply digits_forallb. }
    set (t := strip is_space s) in *.
    assert (P : match t with [] => false | _ => forallb is_digit t end = false) by (apply (K []); [now left|reflexivity]).
    assert (Q : forall d, t = 43 :: d -> match d with [] => false | _ => forallb is_digit d end = false) by (intros d E; apply (K (lit "+")); [right; now left|exact E]).
    assert (Q' : forall d, t = 45 :: d -> match d with [] => false | _ => forallb is_digit d end = false) by (intros d E; apply (K (lit "-")); [right; right; now left|exact E]).
    assert (P' : match t with [] => Err ValueError | _ => if forallb is_digit t then Ok (dec_value t) else Err ValueError end = Err ValueError) by (rewrite D, P; reflexivity).
    clear K Es. destruct t as [|c d]; [reflexivity|].
    destruct c as [|p]; [exact P'|]. do 6 (try destruct p as [p|p|]; try exact P').
    + rewrite D, (Q d eq_refl). reflexivity.
    + rewrite D, (Q' d eq_refl). reflexivity.
Qed.

Theorem C58_numeric_headers : forall L k v, In k [lit ":status"; lit "content-length"; lit "age"] ->
  ((exists s, encoded L k v = Ok s) <-> v = [] \/ Forall number_text (split_on 0 v)) /\
  forall e, encoded L k v = Err e -> e = ValueError.
Proof.
  intros L k v Hk. assert (Ek : encoded L k v = enc_uvarint v) by (destruct Hk as [<-|[<-|[<-|[]]]]; reflexivity). rewrite Ek. clear Ek.
  assert (U : forall l, exists s, uvarints l = Ok s).
  { clear. induction l as [|z l [s E]]; [eexists; reflexivity|]. cbn [uvarints]. destruct (uvarint_of_ok z) as (u & -> & _). rewrite E. eexists; reflexivity. }
  assert (M : forall l, (Forall number_text l -> exists zs, map_res py_int l = Ok zs) /\ (~ Forall number_text l -> map_res py_int l = Err ValueError) /\
     (Forall number_text l \/ ~ Forall number_text l)).
  { clear. assert (Dec : forall s, number_text s \/ ~ number_text s).
    { intros s. destruct (py_int s) as [z|e] eqn:E.
      - destruct (strip_spec is_space s) as (a & b & Es & Ha & Hb & _). left. unfold py_int in E.
        assert (K : forall sign d, In sign [[]; lit "+"; lit "-"] -> strip is_space s = sign ++ d -> match d with [] => false | _ => forallb is_digit d end = true -> number_text s).
        { intros sign d Hs E1 E2. exists a, sign, d, b. destruct d as [|c d]; [discriminate|].
          split; [rewrite Es at 1; rewrite E1, <- ?app_assoc; reflexivity|]. split; [exact Ha|]. split; [exact Hb|]. split; [exact Hs|]. split; [congruence|]. now apply digits_forallb. }
        set (t := strip is_space s) in *. clearbody t.
        assert (D : forall d (z : Z), match d with [] => Err ValueError | _ => if forallb is_digit d then Ok (dec_value d) else Err ValueError end = Ok z -> match d with [] => false | _ => forallb is_digit d end = true).
        { intros [|c d] z' H; [discriminate|]. destruct (forallb is_digit (c :: d)); [reflexivity|discriminate]. }
        destruct t as [|c d]; [discriminate|].
        destruct c as [|p]; [apply (K [] (0 :: d)); [now left|reflexivity|exact (D (0 :: d) z E)]|].
        do 6 (try destruct p as [p|p|]; try (match type of E with context [forallb is_digit ?t] => apply (K [] t); [now left|reflexivity|exact (D t z E)] end)).
        + eapply (K (lit "+") d); [right; now left|reflexivity|exact (D d z E)].
        + apply bind_ok in E. destruct E as (n & E & _). eapply (K (lit "-") d); [right; right; now left|reflexivity|exact (D d n E)].
      - right. intros H. destruct (proj1 (py_int_iff s) H) as (z & E2). congruence. }
    induction l as [|x l (IH1 & IH2 & IH3)]; cbn [map_res].
    - split; [intros _; now exists []|]. split; [intros H; exfalso; apply H; constructor|left; constructor].
    - destruct (Dec x) as [Hx|Hx].
      + destruct (proj1 (py_int_iff x) Hx) as (z & ->). cbn [bind]. destruct IH3 as [Hl|Hl].
        * destruct (IH1 Hl) as (zs & ->). split; [intros _; eexists; reflexivity|]. split; [intros H; exfalso; apply H; now constructor|left; now constructor].
        * rewrite (IH2 Hl). split; [intros H; inversion H; contradiction|]. split; [reflexivity|right; intros H; inversion H; contradiction].
      + rewrite (proj2 (py_int_iff x) Hx). cbn [bind]. split; [intros H; inversion H; contradiction|]. split; [reflexivity|right; intros H; inversion H; contradiction]. }
  unfold enc_uvarint. destruct v as [|c v].
  - destruct (uvarint_of_ok 0) as (s & -> & _). split; [split; [now left|eauto]|congruence].
  - destruct (M (split_on 0 (c :: v))) as (M1 & M2 & [H|H]).
    + destruct (M1 H) as (zs & ->). cbn [bind]. destruct (U zs) as (s & ->). split; [split; [now right|eauto]|congruence].
    + rewrite (M2 H). cbn [bind]. split; [split; [intros (s & E); discriminate|intros [E|E]; [discriminate|contradiction]]|congruence].
Qed.
Print Assumptions C58_numeric_headers.

(** So compress is not total: headers seen in practice make it raise. *)
Theorem C58_never_raises_refuted : exists h, bohe_new false = Ok h /\ forall L,
  bohe_compress L h [(lit "content-length", lit "12 bytes")] = Err ValueError /\
  bohe_compress L h [(lit "cache-control", lit "max-age=1d")] = Err ValueError /\
  bohe_compress L h [(repeat 120 256, lit "y")] = Err StructError.
Proof.
  destruct (bohe_new false) as [h|] eqn:E; [|vm_compute in E; discriminate]. exists h. split; [reflexivity|]. clear E. intros L.
  split; [vm_compute; reflexivity|]. split; vm_compute; reflexivity.
Qed.
Print Assumptions C58_never_raises_refuted.
Example C58_example : number_text (lit " -17 ") /\ ~ number_text (lit "1 2") /\
  forall h, bohe_new true = Ok h -> writable some_library h (lit "age", lit " -17 ").
Proof.
  split; [|split].
  - exists (lit " "), (lit "-"), (lit "17"), (lit " "). split; [reflexivity|]. split; [repeat constructor|]. split; [repeat constructor|].
    split; [right; right; now left|]. split; [discriminate|]. repeat constructor; vm_compute; discriminate.
  - intros H. destruct (proj1 (py_int_iff _) H) as (z & E). vm_compute in E. discriminate.
  - intros h _. split; [intros H; exfalso; apply H; vm_compute; tauto|]. split; [|intros H; exfalso; apply H; split; [vm_compute; tauto|vm_compute; discriminate]].
    intros _. eexists. split; [vm_compute; reflexivity|vm_compute; reflexivity].
Qed.

(** ** C59: the size of the output *)

Definition header_bits (L : library) (h : huffman) (kv : str * str) (n : N) : Prop :=
  (binary L (fst kv) /\ exists s, encoded L (fst kv) (snd kv) = Ok s /\ n = 40 + 8 * lenN s) \/
  (registered (fst kv) /\ ~ binary L (fst kv) /\ n = 39 + coded_bits h (snd kv)) \/
  (~ registered (fst kv) /\ n = 40 + 8 * lenN (fst kv) + coded_bits h (snd kv)).

Theorem C59_output_size : forall is_request h L d out, bohe_new is_request = Ok h -> Forall (octets L) d -> bohe_compress L h d = Ok out ->
  exists ns, Forall2 (header_bits L h) d ns /\ lenN out = octets_of_bits (fold_right N.add 0 ns).
Proof.
  intros is_request h L d out Eh Hd E. destruct (bohe_new_good _ _ Eh) as (ws & G & H256 & Hw).
  pose proof (compress_ok L h ws G H256 d (Forall_impl _ (octets_kv L) Hd)) as C. destruct (first_error L ws d); [congruence|].
  destruct C as (X & HX & E'). assert (out = bytes_of_bits X) by congruence. subst out. clear E E'. rewrite <- octets_len.
  enough (A : exists ns, Forall2 (header_bits L h) d ns /\ lenN X = fold_right N.add 0 ns) by (destruct A as (ns & A & ->); eauto).
  induction HX as [|k v s d R He Hs HR IH]; [exists []; split; [constructor|reflexivity]|].
  inversion Hd as [|? ? (Hk & Hv & _) Hd']; subst. cbn [fst snd] in *. destruct (IH Hd') as (ns & A & El).
  exists (lenN (head_bits L ws k v s) :: ns). split; [constructor; [|exact A]|cbn [fold_right]; rewrite <- El; unfold lenN; rewrite app_length; lia].
  unfold header_bits. cbn [fst snd]. rewrite (coded_len h ws Hw v Hv). unfold head_bits, text_bits, lenN. destruct (index_of k id_table) as [i|] eqn:Ei.
  - assert (Rg : registered k) by (apply registered_index; eauto). destruct (encoder L k) as [e|] eqn:Ee.
    + assert (B : binary L k) by (split; [exact Rg|congruence]). left. split; [exact B|]. exists s. rewrite <- sent_encoded by exact B. split; [exact Hs|].
      rewrite !app_length, bits_of_length, len_bits_len, bits_of_bytes_length. cbn [length]. lia.
    + right. left. split; [exact Rg|]. split; [intros [_ C]; congruence|]. rewrite !app_length, bits_of_length, len_bits_len. cbn [length]. lia.
  - right. right. split; [apply index_of_none, Ei|]. rewrite !app_length, bits_of_length, len_bits_len, bits_of_bytes_length. cbn [length]. lia.
Qed.
Print Assumptions C59_output_size.
Example C59_example : exists h out, bohe_new true = Ok h /\ bohe_compress some_library h [(lit ":method", lit "get"); (lit "x", lit "ee")] = Ok out /\
  lenN out = octets_of_bits ((40 + 8 * 1) + (40 + 8 * 1 + coded_bits h (lit "ee"))) /\ coded_bits h (lit "ee") = 14.
Proof. do 2 eexists. split; [vm_compute; reflexivity|]. split; [vm_compute; reflexivity|]. split; vm_compute; reflexivity. Qed.
