(** * Properties C13 and C14: the Huffman strings of headerdiff. *)
From Coq Require Import String List NArith ZArith Bool Lia Arith Permutation.
From Verif Require Import PyBase Bits HD_Model HD_Int HD_Sim HD_Step HD_Spec HD_Session HD_Total HDHuff_Model HDHuff_Bits HDHuff_Opt Prop_HD.
Import ListNotations.
Open Scope N_scope.
Open Scope py_scope.

(** ** C13 *)

Lemma leaves_paths t : map fst (leaves t) = map fst (paths t).
Proof.
  induction t as [p s|p a IHa b IHb]; [reflexivity|]. cbn [leaves paths]. rewrite !map_app, IHa, IHb, !map_map. reflexivity.
Qed.

Lemma stats_known stats t k : Permutation (leaves t) (normalize_stats stats) -> In k (map fst stats) -> known t (sym_of k).
Proof.
  intros P H. unfold known. rewrite <- leaves_paths. apply in_map_iff in H. destruct H as ([k' v] & <- & H).
  assert (Hin : In (sym_of k', if v =? 0 then 1 else v) (leaves t)).
  { eapply Permutation_in; [symmetry; exact P|]. unfold normalize_stats. apply in_map_iff. exists (k', v). auto. }
  apply (in_map fst) in Hin. exact Hin.
Qed.

Lemma new_codec_ok stats : (2 <= length stats)%nat ->
  exists c, new_codec stats = Ok c /\ k_encoder c = encodings (k_root c) 0 0 /\ is_node (k_root c) /\
    Permutation (leaves (k_root c)) (normalize_stats stats) /\ wf_tree (k_root c) /\
    forall P, Permutation (map fst P) (map snd (normalize_stats stats)) -> kraft (map snd P) -> tcost (k_root c) <= pcost P.
Proof.
  intros H. destruct (create_tree_ok (normalize_stats stats)) as (t & E & W & Nd & L & C).
  { unfold normalize_stats. now rewrite map_length. }
  exists (mk_codec (encodings t 0 0) t). unfold new_codec. rewrite E. cbn [bind k_encoder k_root]. auto 8.
Qed.

(** For every table of statistics with at least two symbols, one of them the
    end marker 256: strings over its characters are encoded, and decoding the
    octets followed by anything gives the string and their number. *)
Theorem C13_huffman_strings : forall stats, (2 <= length stats)%nat -> In 256 (map fst stats) ->
  exists c, new_codec stats = Ok c /\
    forall s, Forall (fun x => x < 256 /\ In x (map fst stats)) s ->
    exists bs, huff_encode c s = Ok bs /\ is_bytes bs /\ forall rest, huff_decode c (bs ++ rest) = Ok (s, lenN bs).
Proof.
  intros stats H2 He. destruct (new_codec_ok stats H2) as (c & E & Ek & Nd & L & _). exists c. split; [exact E|].
  intros s Hs. apply huff_round_trip; [exact Ek|exact Nd|exact (stats_known _ _ _ L He)|].
  eapply Forall_impl; [|exact Hs]. intros x [Hx Hin]. pose proof (stats_known _ _ _ L Hin) as K. unfold sym_of in K.
  now rewrite (proj2 (N.ltb_lt _ _) Hx) in K.
Qed.
Print Assumptions C13_huffman_strings.

(** Decoding arbitrary octets ends: it returns, having used no more octets than
    there are, or raises IndexError. *)
Theorem C13_huffman_decode_total : forall stats c bs, (2 <= length stats)%nat -> new_codec stats = Ok c ->
  (exists s n, huff_decode c bs = Ok (s, n) /\ n <= lenN bs) \/ huff_decode c bs = Err IndexError.
Proof.
  intros stats c bs H2 E. destruct (new_codec_ok stats H2) as (c' & E' & _ & Nd & _).
  assert (c' = c) by congruence. subst c'. unfold huff_decode.
  apply (huff_loop_total bs _ Nd _ _ _ [] (dec_rep_new bs)). rewrite bits_of_bytes_length. lia.
Qed.
Print Assumptions C13_huffman_decode_total.

(** A table with one symbol makes the constructor raise. *)
Theorem C13_single_symbol_raises : forall k v, new_codec [(k, v)] = Err IndexError.
Proof. intros k v. reflexivity. Qed.
Print Assumptions C13_single_symbol_raises.

(** The two tables of the code, whatever the iteration order of the dict. *)
Definition table_of (c : codec) : Prop :=
  exists stats, new_codec stats = Ok c /\ (Permutation stats request_stats \/ Permutation stats response_stats).

Lemma table_facts stats : Permutation stats request_stats \/ Permutation stats response_stats ->
  (2 <= length stats)%nat /\ (forall k, k <= 256 -> In k (map fst stats)).
Proof.
  assert (Kr : map fst request_stats = map N.of_nat (seq 0 257)) by (vm_compute; reflexivity).
  assert (Ks : map fst response_stats = map N.of_nat (seq 0 257)) by (vm_compute; reflexivity).
  assert (Hk : forall k, k <= 256 -> In k (map N.of_nat (seq 0 257))).
  { intros k Hk. apply in_map_iff. exists (N.to_nat k). split; [lia|]. apply in_seq. lia. }
  intros [P|P]; (split;
    [rewrite (Permutation_length P); change 2%nat with (N.to_nat 2); vm_compute; lia
    |intros k Hle; eapply Permutation_in; [apply Permutation_map; symmetry; exact P|]]).
  - rewrite Kr. auto.
  - rewrite Ks. auto.
Qed.

(** The configuration of headerDiffCodec.py with huffman = True (lines 332-337, 606-611). *)
Definition huff_cfg (c : codec) (max : Z) (delta : bool) (t : dtype) : hcfg :=
  mk_hcfg max delta t (huff_encode c) (huff_decode c).

Lemma code_of_known t s x : code_of (encodings t 0 0) s = Ok x -> known t s.
Proof.
  unfold known. rewrite encodings_paths. induction (paths t) as [|[y p] l IH]; cbn [map code_of fst snd In]; [discriminate|].
  destruct (hsym_eqb_spec y s) as [->|H]; [now left|]. intros E. right. now apply IH.
Qed.

Lemma push_chars_known c s : k_encoder c = encodings (k_root c) 0 0 -> forall e e', push_chars c e s = Ok e' ->
  Forall (fun x => known (k_root c) (Chr x)) s.
Proof.
  intros Ek. induction s as [|x s IH]; intros e e' E; [constructor|]. cbn [push_chars] in E.
  apply bind_ok in E. destruct E as ([v n] & E1 & E). apply bind_ok in E. destruct E as (e1 & _ & E).
  constructor; [|now apply (IH e1 e')]. rewrite Ek in E1. now apply code_of_known in E1.
Qed.

Theorem C13_huffman_strings_ok : forall c max delta t, table_of c -> strings_ok (huff_cfg c max delta t).
Proof.
  intros c max delta t (stats & E & P). destruct (table_facts _ P) as [H2 Hk].
  destruct (new_codec_ok stats H2) as (c' & E' & Ek & Nd & L & _). assert (c' = c) by congruence. subst c'.
  intros s bs rest Hw. cbn [huff_cfg h_write h_read] in *.
  assert (Hs : Forall (fun x => known (k_root c) (Chr x)) s).
  { unfold huff_encode in Hw. apply bind_ok in Hw. destruct Hw as (e & Hw & _). eapply push_chars_known; eauto. }
  destruct (huff_round_trip c Ek Nd (stats_known stats _ 256 L (Hk 256 ltac:(lia))) s Hs) as (bs' & E1 & _ & D).
  assert (bs' = bs) by congruence. subst bs'. apply D.
Qed.
Print Assumptions C13_huffman_strings_ok.

(** With these tables every string of octets can be written. *)
Theorem C13_huffman_writes_octets : forall c s, table_of c -> is_bytes s -> exists bs, huff_encode c s = Ok bs.
Proof.
  intros c s (stats & E & P) Hs. destruct (table_facts _ P) as [H2 Hk].
  destruct (C13_huffman_strings stats H2 (Hk 256 ltac:(lia))) as (c' & E' & H). assert (c' = c) by congruence. subst c'.
  destruct (H s) as (bs & Eb & _); [|eauto]. eapply Forall_impl; [|exact Hs]. cbn. intros x Hx. split; [exact Hx|apply Hk; lia].
Qed.
Print Assumptions C13_huffman_writes_octets.

(** Hence the session theorem of headerdiff holds in Huffman mode. *)
Corollary C13_headerdiff_huffman_session : forall c ord max delta t ms e' fs,
  table_of c -> some_order ord -> (0 <= max)%Z -> distinct_texts ms ->
  enc_all ord (huff_cfg c max delta t) henc_new ms = (e', Ok fs) ->
  snd (dec_all (huff_cfg c max delta t) hdec_new (wire ms fs)) = map (fun m => Ok (snd m)) ms.
Proof.
  intros c ord max delta t ms e' fs Hc Ho Hm Hd E.
  exact (C10_headerdiff_session_round_trip ord _ ms e' fs Ho (C13_huffman_strings_ok c max delta t Hc) Hm Hd E).
Qed.
Print Assumptions C13_headerdiff_huffman_session.

Definition result_codec (r : res codec) : codec := match r with Ok c => c | Err _ => mk_codec [] (HLeaf 0 (Num 0)) end.
Definition request_codec : codec := result_codec (new_codec request_stats).

Example C13_request_string :
  let s := lit "GET /index.html?x=1" in
  exists bs, huff_encode request_codec s = Ok bs /\ lenN bs = 17 /\ huff_decode request_codec (bs ++ [255; 0; 17]) = Ok (s, 17).
Proof. cbv zeta. eexists. split; [vm_compute; reflexivity|]. split; vm_compute; reflexivity. Qed.

Example C13_small_table :
  let stats := [(97, 5); (98, 2); (99, 0); (256, 1)] in
  exists c, new_codec stats = Ok c /\ huff_encode c (lit "abcab") = Ok [138; 48] /\
    huff_decode c ([138; 48] ++ [1; 2; 3]) = Ok (lit "abcab", 2).
Proof. cbv zeta. eexists. split; [vm_compute; reflexivity|]. split; vm_compute; reflexivity. Qed.

Example C13_huffman_session_case :
  let ms := [(true, [(lit ":path", lit "/a"); (lit "cookie", lit "k=v")]); (true, [(lit ":path", lit "/a"); (lit "cookie", lit "k=w")])] in
  table_of request_codec /\ distinct_texts ms /\
  exists e fs, enc_all (fun _ l => l) (huff_cfg request_codec 4096 true DFull) henc_new ms = (e, Ok fs) /\
    map lenN fs = [18; 14].
Proof.
  cbv zeta. split; [|split].
  - exists request_stats. split; [vm_compute; reflexivity|now left].
  - intros a b Ha Hb. cbn [all_headers flat_map snd app] in Ha, Hb.
    destruct Ha as [<-|[<-|[<-|[<-|[]]]]]; destruct Hb as [<-|[<-|[<-|[<-|[]]]]]; try reflexivity; intros E; vm_compute in E; discriminate.
  - eexists. eexists. split; vm_compute; reflexivity.
Qed.

(** ** C14 *)

(** The bits of a code word of the table the constructor builds. *)
Definition codeword (c : codec) (k : N) : list bool :=
  match code_of (k_encoder c) (sym_of k) with Ok (v, n) => bits_of n v | Err _ => [] end.

(** No word is the beginning of the word of another symbol. *)
Definition prefix_free (code : N -> list bool) (ks : list N) : Prop :=
  forall x y z, In x ks -> In y ks -> x <> y -> code y <> code x ++ z.

(** The statistics count a symbol that never occurred once. *)
Definition total (stats : list (N * N)) (code : N -> list bool) : N :=
  fold_right (fun '(k, v) n => N.max 1 v * lenN (code k) + n) 0 stats.

Fixpoint wpaths (t : htree) : list (hsym * N * list bool) :=
  match t with
  | HLeaf p s => [(s, p, [])]
  | HNode _ a b => map (fun x => (fst x, false :: snd x)) (wpaths a) ++ map (fun x => (fst x, true :: snd x)) (wpaths b)
  end.

Lemma wpaths_leaves t : map fst (wpaths t) = leaves t.
Proof.
  induction t as [p s|p a IHa b IHb]; [reflexivity|]. cbn [wpaths leaves]. rewrite map_app, !map_map. cbn [fst].
  rewrite <- IHa, <- IHb. reflexivity.
Qed.

Lemma wpaths_paths t s w p : In (s, w, p) (wpaths t) -> In (s, p) (paths t).
Proof.
  revert p. induction t as [q x|q a IHa b IHb]; intros p H; cbn [wpaths paths] in *.
  - destruct H as [H|[]]. inversion H. now left.
  - apply in_app_or in H. apply in_or_app. destruct H as [H|H]; [left|right]; apply in_map_iff in H; destruct H as ([[s' w'] p'] & E & H);
      cbn [fst snd] in E; inversion E; subst; apply in_map_iff; exists (s, p'); auto.
Qed.

Definition wsum (l : list (hsym * N * list bool)) : N := fold_right (fun '(_, w, p) n => w * lenN p + n) 0 l.

Lemma wsum_app a b : wsum (a ++ b) = wsum a + wsum b.
Proof. induction a as [|[[s w] p] a IH]; cbn [app wsum fold_right] in *; [reflexivity|]. fold (wsum (a ++ b)) (wsum a). rewrite IH. lia. Qed.

Lemma wsum_deeper b l : wsum (map (fun x => (fst x, b :: snd x)) l) = wsum l + fold_right (fun '(_, w, _) n => w + n) 0 l.
Proof.
  induction l as [|[[s w] p] l IH]; [reflexivity|]. cbn [map fst snd wsum fold_right].
  fold (wsum (map (fun x : hsym * N * list bool => (fst x, b :: snd x)) l)) (wsum l). rewrite IH. unfold lenN. cbn [length]. lia.
Qed.

Lemma wsum_weight t : wf_tree t -> fold_right (fun '(_, w, _) n => w + n) 0 (wpaths t) = priority t.
Proof.
  assert (Ha : forall l m, fold_right (fun '((_, w, _) : hsym * N * list bool) n => w + n) 0 (l ++ m) =
    fold_right (fun '(_, w, _) n => w + n) 0 l + fold_right (fun '(_, w, _) n => w + n) 0 m).
  { induction l as [|[[s w] p] l IH]; intros m; cbn [app fold_right]; [reflexivity|]. rewrite IH. lia. }
  assert (Hm : forall b l, fold_right (fun '((_, w, _) : hsym * N * list bool) n => w + n) 0 (map (fun x => (fst x, b :: snd x)) l) =
    fold_right (fun '(_, w, _) n => w + n) 0 l).
  { intros b. induction l as [|[[s w] p] l IH]; cbn [map fold_right fst]; [reflexivity|]. now rewrite IH. }
  induction t as [p s|p a IHa b IHb]; intros W; [cbn; lia|]. destruct W as (-> & Wa & Wb). cbn [wpaths].
  rewrite Ha, !Hm, IHa, IHb by assumption. reflexivity.
Qed.

Lemma wsum_cost t : wf_tree t -> wsum (wpaths t) = tcost t.
Proof.
  induction t as [p s|p a IHa b IHb]; intros W; [cbn; lia|]. destruct W as (-> & Wa & Wb). cbn [wpaths tcost].
  rewrite wsum_app, !wsum_deeper, IHa, IHb, !wsum_weight by assumption. lia.
Qed.

Lemma paths_prefix t : forall s s' p z, In (s, p) (paths t) -> In (s', p ++ z) (paths t) -> s = s'.
Proof.
  induction t as [q x|q a IHa b IHb]; intros s s' p z H H'; cbn [paths] in *.
  - destruct H as [H|[]]. destruct H' as [H'|[]]. congruence.
  - apply in_app_or in H. apply in_app_or in H'.
    destruct H as [H|H]; apply in_map_iff in H; destruct H as ([u p1] & E & H); cbn [fst snd] in E; inversion E; subst; cbn [app] in H';
    destruct H' as [H'|H']; apply in_map_iff in H'; destruct H' as ([u' p2] & E' & H'); cbn [fst snd] in E'; inversion E'; subst.
    + eapply IHa; eauto.
    + eapply IHb; eauto.
Qed.

Lemma nodup_pair {A B} (l : list (A * B)) a b b' : NoDup (map fst l) -> In (a, b) l -> In (a, b') l -> b = b'.
Proof.
  induction l as [|[x y] l IH]; cbn [map In fst]; [tauto|]. intros ND [H|H] [H'|H']; inversion ND as [|? ? Hn ND']; subst.
  - congruence.
  - inversion H; subst. exfalso. apply Hn. apply (in_map fst) in H'. exact H'.
  - inversion H'; subst. exfalso. apply Hn. apply (in_map fst) in H. exact H.
  - eauto.
Qed.

Lemma sym_of_inj a b : sym_of a = sym_of b -> a = b.
Proof. unfold sym_of. destruct (a <? 256), (b <? 256); congruence. Qed.

Lemma normalize_fst stats : map fst (normalize_stats stats) = map sym_of (map fst stats).
Proof. unfold normalize_stats. rewrite !map_map. apply map_ext. now intros [k v]. Qed.

Definition sword (c : codec) (s : hsym) : list bool :=
  match code_of (k_encoder c) s with Ok (v, n) => bits_of n v | Err _ => [] end.

Lemma sword_path c s p : k_encoder c = encodings (k_root c) 0 0 -> NoDup (map fst (paths (k_root c))) ->
  In (s, p) (paths (k_root c)) -> sword c s = p.
Proof.
  intros Ek ND H. unfold sword. rewrite Ek.
  destruct (code_of_path (k_root c) s) as (v & q & E & Hq & Eb); [apply (in_map fst) in H; exact H|].
  rewrite E, Eb. eapply nodup_pair; eauto.
Qed.

Definition lsum (f : hsym -> list bool) (l : list (hsym * N)) : N := fold_right (fun '(s, w) n => w * lenN (f s) + n) 0 l.

Lemma lsum_perm f a b : Permutation a b -> lsum f a = lsum f b.
Proof. induction 1; repeat match goal with x : (hsym * N)%type |- _ => destruct x end; unfold lsum in *; cbn [fold_right]; lia. Qed.

Lemma total_lsum c stats : total stats (codeword c) = lsum (sword c) (normalize_stats stats).
Proof.
  induction stats as [|[k v] l IH]; [reflexivity|]. cbn [total normalize_stats map lsum fold_right].
  fold (total l (codeword c)) (normalize_stats l) (lsum (sword c) (normalize_stats l)). rewrite IH.
  change (codeword c k) with (sword c (sym_of k)). f_equal. f_equal. destruct (N.eqb_spec v 0); lia.
Qed.

Lemma lsum_wsum f l : (forall s w p, In (s, w, p) l -> f s = p) -> lsum f (map fst l) = wsum l.
Proof.
  induction l as [|[[s w] p] l IH]; intros H; [reflexivity|]. cbn [map fst lsum wsum fold_right].
  fold (lsum f (map fst l)) (wsum l). rewrite IH by (intros; eapply H; right; eauto). rewrite (H s w p) by now left. reflexivity.
Qed.

Lemma total_pcost stats code : total stats code = pcost (map (fun '(k, v) => (N.max 1 v, length (code k))) stats).
Proof. induction stats as [|[k v] l IH]; [reflexivity|]. cbn [total fold_right map pcost]. fold (total l code). rewrite IH. reflexivity. Qed.

Lemma prefix_free_pairwise code ks : NoDup ks -> prefix_free code ks -> pairwise incomparable (map code ks).
Proof.
  induction 1 as [|x l Hx ND IH]; intros H; cbn [map]; [constructor|]. constructor.
  - apply Forall_map, Forall_forall. intros y Hy C. assert (Hne : x <> y) by (intros ->; contradiction).
    destruct C as [[z E]|[z E]].
    + apply (H x y z); cbn; auto.
    + apply (H y x z); cbn; auto.
  - apply IH. intros a b z Ha Hb. apply H; now right.
Qed.

(** For every table with at least two symbols: the code words are prefix-free,
    and no prefix-free code for the same symbols has a smaller total length. *)
Theorem C14_huffman_optimal : forall stats, NoDup (map fst stats) -> (2 <= length stats)%nat ->
  exists c, new_codec stats = Ok c /\ prefix_free (codeword c) (map fst stats) /\
    forall other, prefix_free other (map fst stats) -> total stats (codeword c) <= total stats other.
Proof.
  intros stats ND H2. destruct (new_codec_ok stats H2) as (c & E & Ek & Nd & L & W & Opt). exists c. split; [exact E|].
  assert (NDs : NoDup (map fst (paths (k_root c)))).
  { rewrite <- leaves_paths. eapply Permutation_NoDup; [apply Permutation_map; symmetry; exact L|]. rewrite normalize_fst.
    apply FinFun.Injective_map_NoDup; [exact sym_of_inj|exact ND]. }
  split.
  - intros x y z Hx Hy Hne Ep. apply Hne, sym_of_inj.
    pose proof (stats_known _ _ _ L Hx) as Kx. pose proof (stats_known _ _ _ L Hy) as Ky. unfold known in Kx, Ky.
    apply in_map_iff in Kx. destruct Kx as ([sx px] & Ex & Ix). apply in_map_iff in Ky. destruct Ky as ([sy py] & Ey & Iy).
    cbn [fst] in Ex, Ey. subst sx sy. change (codeword c x) with (sword c (sym_of x)) in Ep. change (codeword c y) with (sword c (sym_of y)) in Ep.
    rewrite (sword_path c _ _ Ek NDs Ix), (sword_path c _ _ Ek NDs Iy) in Ep. subst py. eapply paths_prefix; eauto.
  - intros other Hp. rewrite total_lsum, <- (lsum_perm _ _ _ L), <- wpaths_leaves, lsum_wsum, wsum_cost by
      (try exact W; intros s w p Hin; apply (sword_path c _ _ Ek NDs), (wpaths_paths _ _ w), Hin).
    rewrite total_pcost. apply Opt.
    + rewrite map_map. unfold normalize_stats. rewrite map_map.
      assert (Em : map (fun x : N * N => fst (let '(k, v) := x in (N.max 1 v, length (other k)))) stats =
                   map (fun x : N * N => snd (let '(k, v) := x in (sym_of k, if v =? 0 then 1 else v))) stats).
      { apply map_ext. intros [k v]. cbn [fst snd]. destruct (N.eqb_spec v 0); lia. }
      rewrite Em. reflexivity.
    + assert (Em : map snd (map (fun '(k, v) => (N.max 1 v, length (other k))) stats) = map (@length bool) (map other (map fst stats))).
      { rewrite !map_map. apply map_ext. now intros [k v]. }
      rewrite Em. apply prefix_kraft, prefix_free_pairwise; assumption.
Qed.
Print Assumptions C14_huffman_optimal.

Example C14_case :
  let stats := [(97, 5); (98, 2); (99, 0); (256, 1)] in
  NoDup (map fst stats) /\ (2 <= length stats)%nat /\
  exists c, new_codec stats = Ok c /\ map (codeword c) [97; 98; 99; 256] =
      [[true]; [false; false]; [false; true; false]; [false; true; true]] /\
    total stats (codeword c) = 15 /\
    total stats (fun k => if k =? 97 then [false; false] else if k =? 98 then [false; true] else if k =? 99 then [true; false] else [true; true]) = 18.
Proof.
  cbv zeta. split; [repeat constructor; cbn; intuition discriminate|]. split; [cbn; lia|].
  eexists. split; [vm_compute; reflexivity|]. repeat split; vm_compute; reflexivity.
Qed.
