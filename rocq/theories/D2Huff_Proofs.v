(** * delta2's Huffman coder: canonical code words, decoding tree, round trip. *)
From Coq Require Import List NArith ZArith QArith Bool Arith Lia ZifyN ZifyNat Permutation Sorted.
From Verif Require Import PyBase NBits Bits BB_Model BB_Spec BB_Proofs BB_Read HDHuff_Bits HDHuff_Opt D2Huff_Model.
Import ListNotations.
Open Scope N_scope.
Open Scope py_scope.

(** ** Depths of the leaves *)

Fixpoint cld (t : ctree) : list (N * nat) :=
  match t with
  | CLeaf _ s => [(s, 0%nat)]
  | CNode _ _ a b => map (fun x => (fst x, S (snd x))) (cld a ++ cld b)
  end.

Definition csyms (t : ctree) : list N := map fst (cld t).

Lemma syms_at_cld t : forall d, syms_at t d = map fst (filter (fun x => (snd x =? d)%nat) (cld t)).
Proof.
  induction t as [w s|w n a IHa b IHb]; intros [|d]; cbn [syms_at cld filter snd Nat.eqb map fst]; try reflexivity.
  - symmetry. induction (cld a ++ cld b) as [|x l IH]; [reflexivity|exact IH].
  - rewrite IHa, IHb, <- map_app, <- filter_app. induction (cld a ++ cld b) as [|x l IH]; [reflexivity|].
    cbn [map filter snd Nat.eqb]. destruct (snd x =? d)%nat; cbn [map fst]; now rewrite IH.
Qed.

Fixpoint okdepth (t : ctree) : Prop :=
  match t with
  | CLeaf _ _ => True
  | CNode _ d a b => d = S (Nat.max (cdepth a) (cdepth b)) /\ okdepth a /\ okdepth b
  end.

Lemma cld_bound t : okdepth t -> Forall (fun x => (snd x <= cdepth t)%nat) (cld t).
Proof.
  induction t as [w s|w n a IHa b IHb]; cbn [okdepth cld cdepth]; intros H; [repeat constructor|].
  destruct H as (-> & Ha & Hb). apply Forall_map. apply Forall_app. cbn [snd]. split.
  - eapply Forall_impl; [|now apply IHa]. cbn. intros x Hx. lia.
  - eapply Forall_impl; [|now apply IHb]. cbn. intros x Hx. lia.
Qed.

Lemma ksum_app L a b : ksum L (a ++ b) = ksum L a + ksum L b.
Proof. induction a as [|x a IH]; cbn [app ksum]; [lia|]. rewrite IH. lia. Qed.

(** The Kraft sum of a tree is one. *)
Lemma cld_kraft t : okdepth t -> forall L, (cdepth t <= L)%nat -> ksum L (map snd (cld t)) = p2 L.
Proof.
  induction t as [w s|w n a IHa b IHb]; cbn [okdepth cld cdepth]; intros H L HL.
  - cbn [map snd ksum]. rewrite Nat.sub_0_r. lia.
  - destruct H as (-> & Ha & Hb). destruct L as [|L]; [lia|]. rewrite map_map. cbn [snd].
    assert (E : forall l, ksum (S L) (map (fun x : N * nat => S (snd x)) l) = ksum L (map snd l)).
    { induction l as [|x l IH]; [reflexivity|]. cbn [map ksum]. rewrite IH. reflexivity. }
    rewrite E, map_app, ksum_app, IHa, IHb, p2_S by (assumption || lia). lia.
Qed.

(** ** The code words in the order in which they are handed out *)

Lemma sort_syms_perm l : Permutation (sort_syms l) l.
Proof.
  induction l as [|x l IH]; [constructor|]. cbn [sort_syms fold_right]. transitivity (x :: sort_syms l); [|now constructor].
  unfold sort_syms. generalize (fold_right insert_sym [] l). clear. induction l as [|y l IH]; cbn [insert_sym]; [reflexivity|].
  destruct (x <=? y); [reflexivity|]. etransitivity; [apply perm_skip, IH|apply perm_swap].
Qed.

Definition sched (t : ctree) (ks : list nat) : list (N * nat) :=
  flat_map (fun k => map (fun s => (s, k)) (sort_syms (syms_at t k))) ks.

Lemma partition_perm (l : list (N * nat)) : forall ks, NoDup ks -> (forall x, In x l -> In (snd x) ks) ->
  Permutation (flat_map (fun k => map (fun s => (s, k)) (map fst (filter (fun x => (snd x =? k)%nat) l))) ks) l.
Proof.
  induction l as [|x l IH]; intros ks Hnd Hin.
  - cbn [filter map]. clear. induction ks; [constructor|exact IHks].
  - specialize (IH ks Hnd ltac:(intros y Hy; apply Hin; now right)).
    transitivity (x :: flat_map (fun k => map (fun s => (s, k)) (map fst (filter (fun x => (snd x =? k)%nat) l))) ks); [|now constructor].
    assert (Hx : In (snd x) ks) by (apply Hin; now left). clear -Hnd Hx. destruct x as [s d]. cbn [snd] in *.
    induction ks as [|k ks IH]; [destruct Hx|]. inversion Hnd; subst. cbn [flat_map filter snd].
    destruct (Nat.eqb_spec d k) as [->|Ne].
    + cbn [map fst]. cbn [app]. constructor. apply Permutation_app_head.
      assert (E : forall ks, ~ In k ks -> flat_map (fun k0 => map (fun s0 => (s0, k0)) (map fst (filter (fun x => (snd x =? k0)%nat) ((s, k) :: l)))) ks =
         flat_map (fun k0 => map (fun s0 => (s0, k0)) (map fst (filter (fun x => (snd x =? k0)%nat) l))) ks).
      { clear. induction ks as [|q ks IH]; intros H; [reflexivity|]. cbn [flat_map filter snd] in *.
        destruct (Nat.eqb_spec k q) as [->|Nq]; [exfalso; apply H; now left|]. f_equal. apply IH. intros C. apply H. now right. }
      cbn [filter snd] in E. rewrite E by assumption. reflexivity.
    + destruct Hx as [Hx|Hx]; [congruence|]. specialize (IH H2 Hx). cbn [filter snd] in IH.
      etransitivity; [apply Permutation_app_head, IH|]. symmetry. apply Permutation_middle.
Qed.

Lemma sched_perm t ks : okdepth t -> Permutation ks (depth_keys t) -> Permutation (sched t ks) (cld t).
Proof.
  intros Hd Hp.
  assert (Hnd : NoDup ks). { eapply Permutation_NoDup; [symmetry; exact Hp|]. apply NoDup_filter, seq_NoDup. }
  assert (Hin : forall x, In x (cld t) -> In (snd x) ks).
  { intros x Hx. eapply Permutation_in; [symmetry; exact Hp|]. unfold depth_keys. apply filter_In. split.
    - apply in_seq. pose proof (cld_bound t Hd) as HF. rewrite Forall_forall in HF. specialize (HF x Hx). lia.
    - rewrite syms_at_cld. assert (In x (filter (fun y => (snd y =? snd x)%nat) (cld t))) by (apply filter_In; split; [exact Hx|apply Nat.eqb_refl]).
      destruct (filter _ (cld t)); [destruct H|reflexivity]. }
  etransitivity; [|apply (partition_perm (cld t) ks Hnd Hin)]. unfold sched. clear.
  induction ks as [|k ks IH]; [constructor|]. cbn [flat_map]. apply Permutation_app; [|exact IH].
  apply Permutation_map. rewrite sort_syms_perm, syms_at_cld. reflexivity.
Qed.

(** Handing out along a list of (symbol, length). *)
Fixpoint assign_list (l : list (N * nat)) (next : N) (prev : nat) (tab : ctable) : res (N * nat * ctable) :=
  match l with
  | [] => Ok (next, prev, tab)
  | (s, k) :: l' =>
      if (k <? prev)%nat then Err ValueError
      else
        let code := N.shiftl next (N.of_nat (k - prev)) in
        let* w := brep (bin_format k code) in
        assign_list l' (code + 1) k (zset tab s (w, code))
  end.

Lemma assign_depth_list k syms : forall next prev tab,
  assign_depth k syms next prev tab = assign_list (map (fun s => (s, k)) syms) next prev tab.
Proof.
  induction syms as [|s syms IH]; intros next prev tab; [reflexivity|]. cbn [assign_depth map assign_list].
  destruct (k <? prev)%nat; [reflexivity|]. destruct (brep _) as [w|e]; [|reflexivity]. cbn [bind]. apply IH.
Qed.

Lemma assign_list_app a : forall b next prev tab,
  assign_list (a ++ b) next prev tab = let* (n, p, t) := assign_list a next prev tab in assign_list b n p t.
Proof.
  induction a as [|[s k] a IH]; intros b next prev tab; [reflexivity|]. cbn [app assign_list].
  destruct (k <? prev)%nat; [reflexivity|]. destruct (brep _) as [w|e]; [|reflexivity]. cbn [bind]. apply IH.
Qed.

Lemma assign_all_list t ks : forall next prev tab,
  assign_all t ks next prev tab = let* (_, _, tab) := assign_list (sched t ks) next prev tab in Ok tab.
Proof.
  induction ks as [|k ks IH]; intros next prev tab; [reflexivity|]. cbn [assign_all sched flat_map].
  rewrite assign_list_app, <- assign_depth_list. destruct (assign_depth _ _ _ _ _) as [[[n p] tb]|e]; [|reflexivity].
  cbn [bind]. apply IH.
Qed.

(** *** Formatting *)

Lemma bits_of_pad0 n k v : v < 2 ^ N.of_nat n -> bits_of (k + n) v = repeat false k ++ bits_of n v.
Proof.
  intros H. rewrite bits_of_split. f_equal. rewrite N.shiftr_div_pow2, N.div_small by exact H.
  clear. induction k as [|k IH]; [reflexivity|]. cbn [bits_of repeat]. now rewrite N.bits_0, IH.
Qed.

Lemma bin_format_ok k c : c < p2 k -> bin_format k c = bits_of k c.
Proof.
  intros H. unfold bin_format. f_equal. apply Nat.max_l. destruct c as [|p]; [cbn; lia|].
  cbn [N.size_nat]. unfold p2 in H.
  assert (G : forall p k, N.pos p < 2 ^ N.of_nat k -> (Pos.size_nat p <= k)%nat).
  { clear. induction p as [p IH|p IH|]; intros k H.
    - destruct k as [|k]; [cbn in H; lia|]. rewrite Nat2N.inj_succ, N.pow_succ_r' in H. cbn [Pos.size_nat]. specialize (IH k ltac:(lia)). lia.
    - destruct k as [|k]; [cbn in H; lia|]. rewrite Nat2N.inj_succ, N.pow_succ_r' in H. cbn [Pos.size_nat]. specialize (IH k ltac:(lia)). lia.
    - destruct k as [|k]; [cbn in H; lia|]. cbn [Pos.size_nat]. lia. }
  now apply G.
Qed.

Lemma brep_loop_ok fuel : forall s, (length s <= fuel)%nat -> brep_loop fuel s = bytes_of_bits s.
Proof.
  assert (U : forall s fuel, (length s <= fuel)%nat ->
    is_bytes (brep_loop fuel s) /\ bits_of_bytes (brep_loop fuel s) = s ++ repeat false (pad_len (length s))).
  { intros s f. revert s. induction f as [|f IH]; intros s Hs.
    - destruct s; [|cbn in Hs; lia]. split; [constructor|reflexivity].
    - cbn [brep_loop]. destruct (Nat.ltb_spec 8 (length s)) as [H|H].
      + destruct (IH (skipn 8 s)) as [Hb E]; [rewrite skipn_length; lia|].
        assert (Hl8 : length (firstn 8 s) = 8%nat) by (apply firstn_length_le; lia).
        assert (Hv : val_of (firstn 8 s) < 256). { pose proof (val_of_bound (firstn 8 s)) as B. unfold lenN in B. rewrite Hl8 in B. exact B. }
        split; [constructor; assumption|]. rewrite bob_cons, E. pose proof (bits_of_val (firstn 8 s)) as Ev. rewrite Hl8 in Ev. rewrite Ev.
        rewrite app_assoc, firstn_skipn. do 2 f_equal. rewrite skipn_length. unfold pad_len.
        rewrite <- (Nat.mod_add (length s - 8) 1 8) by lia. do 3 f_equal. lia.
      + destruct s as [|x s]; [split; [constructor|reflexivity]|]. set (l := x :: s) in *.
        assert (Hl : length (l ++ repeat false (8 - length l)) = 8%nat) by (rewrite app_length, repeat_length; lia).
        assert (Hv : val_of (l ++ repeat false (8 - length l)) < 256).
        { pose proof (val_of_bound (l ++ repeat false (8 - length l))) as B. unfold lenN in B. rewrite Hl in B. exact B. }
        split; [repeat constructor; exact Hv|]. rewrite bob_cons. cbn [bits_of_bytes flat_map]. rewrite app_nil_r.
        pose proof (bits_of_val (l ++ repeat false (8 - length l))) as Ev. rewrite Hl in Ev. rewrite Ev. do 2 f_equal.
        unfold pad_len. assert (1 <= length l)%nat by (unfold l; cbn; lia). destruct (Nat.eq_dec (length l) 8) as [->|N8]; [reflexivity|].
        rewrite (Nat.mod_small (length l)) by lia. symmetry. apply Nat.mod_small. lia. }
  intros s Hs. apply bytes_of_bits_unique; apply (U s fuel Hs).
Qed.

Lemma brep_ok s : s <> [] -> brep s = Ok (bytes_of_bits s, length s).
Proof. destruct s as [|x s]; [congruence|]. intros _. unfold brep. now rewrite brep_loop_ok by lia. Qed.

(** *** The words are never a prefix of one another *)

Definition enc (w : list bool) : word := (bytes_of_bits w, length w).
Definition mk_entry (x : N * list bool) : N * (word * N) := (fst x, (enc (snd x), val_of (snd x))).

Lemma zset_map P s w : zset (map mk_entry P) s (enc w, val_of w) = map mk_entry (zset P s w).
Proof.
  induction P as [|[x y] P IH]; [reflexivity|]. cbn [map mk_entry zset fst snd]. destruct (x =? s); cbn [map]; [reflexivity|].
  now rewrite IH.
Qed.

Lemma zset_in {V} (P : list (N * V)) s w x y : NoDup (map fst P) -> In (x, y) (zset P s w) -> (x = s /\ y = w) \/ (x <> s /\ In (x, y) P).
Proof.
  induction P as [|[a b] P IH]; cbn [zset In map fst]; intros Hnd H.
  - destruct H as [H|[]]. left. split; congruence.
  - inversion Hnd; subst. destruct (N.eqb_spec a s) as [->|Ne].
    + destruct H as [H|H]; [left; split; congruence|]. right. split; [|now right]. intros ->. apply H2. now apply (in_map fst) in H.
    + destruct H as [H|H]; [right; assert (a = x) by congruence; subst; split; [exact Ne|now left]|].
      destruct (IH H3 H) as [?|[? ?]]; [now left|right; auto].
Qed.

Lemma zset_keys {V} (P : list (N * V)) s w : NoDup (map fst P) -> NoDup (map fst (zset P s w)).
Proof.
  induction P as [|[a b] P IH]; cbn [zset map fst]; intros Hnd; [repeat constructor; tauto|]. inversion Hnd; subst.
  destruct (N.eqb_spec a s) as [->|Ne]; [exact Hnd|]. cbn [map fst]. constructor; [|now apply IH].
  intros H. apply in_map_iff in H. destruct H as ([x y] & E & H). cbn in E. subst x. apply zset_in in H; [|exact H2].
  destruct H as [[? _]|[_ H]]; [congruence|]. apply H1. now apply (in_map fst) in H.
Qed.

Lemma zset_has {V} (P : list (N * V)) s w : In (s, w) (zset P s w).
Proof.
  induction P as [|[a b] P IH]; cbn [zset]; [now left|]. destruct (N.eqb_spec a s) as [->|]; [now left|now right].
Qed.

Lemma val_prefix a c : val_of (a ++ c) < (val_of a + 1) * p2 (length c).
Proof.
  rewrite val_of_app. pose proof (val_of_bound c). unfold lenN, p2 in *. nia.
Qed.

Lemma not_comparable a b : (length a <= length b)%nat -> (val_of a + 1) * p2 (length b - length a) <= val_of b -> incomparable a b.
Proof.
  intros Hl Hv [(c & E)|(c & E)].
  - subst b. rewrite app_length in *. replace (length a + length c - length a)%nat with (length c) in Hv by lia.
    pose proof (val_prefix a c). lia.
  - subst a. rewrite app_length in Hl. assert (c = []) by (destruct c; [reflexivity|cbn in Hl; lia]). subst c.
    rewrite app_nil_r, Nat.sub_diag in Hv. change (p2 0) with 1 in Hv. lia.
Qed.

Lemma incomparable_sym a b : incomparable a b -> incomparable b a.
Proof. intros H [C|C]; apply H; [right|left]; exact C. Qed.

Definition words_ok (P : list (N * list bool)) : Prop :=
  NoDup (map fst P) /\ (forall x, In x P -> snd x <> []) /\
  forall x y, In x P -> In y P -> fst x <> fst y -> incomparable (snd x) (snd y).

Definition below (next : N) (prev : nat) (w : list bool) : Prop :=
  (length w <= prev)%nat /\ (val_of w + 1) * p2 (prev - length w) <= next.

Lemma assign_list_ok L l : forall done next prev P,
  next = ksum prev done -> Forall (fun k => (k <= prev)%nat) done ->
  ksum L (done ++ map snd l) <= p2 L -> Forall (fun x => (1 <= snd x <= L)%nat) l -> (prev <= L)%nat ->
  words_ok P -> (forall x, In x P -> below next prev (snd x)) ->
  StronglySorted (fun a b => (snd a <= snd b)%nat) l -> Forall (fun x => (prev <= snd x)%nat) l ->
  exists n p P', assign_list l next prev (map mk_entry P) = Ok (n, p, map mk_entry P') /\ words_ok P' /\
    (forall s, In s (map fst P') <-> In s (map fst P) \/ In s (map fst l)) /\
    (forall x, In x P' -> In x P \/ In (fst x, length (snd x)) l).
Proof.
  induction l as [|[s k] l IH]; intros done next prev P En Hd HK Hl HpL HP Hb HS Hge.
  - exists next, prev, P. cbn [assign_list map In]. repeat split; try apply HP; try tauto.
  - cbn [assign_list]. inversion Hl as [|? ? Hk Hl']; subst. inversion HS as [|? ? HS' HSk]; subst. inversion Hge as [|? ? Hpk Hge']; subst.
    cbn [snd] in *. destruct (Nat.ltb_spec k prev) as [C|_]; [lia|]. cbv zeta.
    rewrite N.shiftl_mul_pow2. fold (p2 (k - prev)). set (c := ksum prev done * p2 (k - prev)).
    assert (Ec : c = ksum k done).
    { unfold c. replace k with (prev + (k - prev))%nat at 2 by lia. rewrite ksum_scale by exact Hd. lia. }
    assert (Hdk : Forall (fun x => (x <= k)%nat) (done ++ [k])).
    { apply Forall_app. split; [|repeat constructor; lia]. eapply Forall_impl; [|exact Hd]. cbn. intros x Hx. lia. }
    assert (Hc : c + 1 <= p2 k).
    { assert (Eck : c + 1 = ksum k (done ++ [k])). { rewrite ksum_app, <- Ec. cbn [ksum]. rewrite Nat.sub_diag. change (p2 0) with 1. lia. }
      rewrite Eck. pose proof (ksum_scale k (L - k) _ Hdk) as Es. replace (k + (L - k))%nat with L in Es by lia.
      assert (Hle : ksum L (done ++ [k]) <= p2 L).
      { cbn [map snd] in HK. rewrite ksum_app in *. cbn [ksum] in *. lia. }
      rewrite Es in Hle. replace L with (L - k + k)%nat in Hle at 2 by lia. rewrite p2_add in Hle.
      pose proof (p2_pos (L - k)). nia. }
    rewrite bin_format_ok by lia. set (w := bits_of k c).
    assert (Hlw : length w = k) by apply bits_of_length.
    assert (Hne : w <> []) by (intros C; rewrite C in Hlw; cbn in Hlw; lia).
    rewrite brep_ok by exact Hne. cbn [bind]. fold (enc w).
    assert (Hvw : val_of w = c) by (apply val_of_bits_small; fold (p2 k); lia).
    assert (Ez : zset (map mk_entry P) s (enc w, c) = map mk_entry (zset P s w)) by (rewrite <- zset_map, Hvw; reflexivity).
    match goal with |- context [assign_list l (c + 1) k ?z] => replace z with (map mk_entry (zset P s w)) by (symmetry; exact Ez) end.
    destruct HP as (Hnd & Hne' & Hinc).
    assert (HP2 : words_ok (zset P s w)).
    { split; [now apply zset_keys|]. split.
      - intros [x y] Hin. apply zset_in in Hin; [|exact Hnd]. destruct Hin as [[_ ->]|[_ Hin]]; [exact Hne|apply (Hne' _ Hin)].
      - assert (Hnew : forall x, In x P -> incomparable (snd x) w).
        { intros x Hx. destruct (Hb x Hx) as [B1 B2]. apply not_comparable; [lia|]. rewrite Hlw, Hvw. unfold c.
          replace (k - length (snd x))%nat with ((prev - length (snd x)) + (k - prev))%nat by lia. rewrite p2_add.
          pose proof (p2_pos (k - prev)). nia. }
        intros [x y] [x' y'] H1 H2 Hd'. cbn [fst snd] in *. apply zset_in in H1; [|exact Hnd]. apply zset_in in H2; [|exact Hnd].
        destruct H1 as [[-> ->]|[Hx H1]], H2 as [[-> ->]|[Hx' H2]]; try congruence.
        + apply incomparable_sym. apply (Hnew _ H2).
        + apply (Hnew _ H1).
        + apply (Hinc _ _ H1 H2 Hd'). }
    destruct (IH (done ++ [k]) (c + 1) k (zset P s w)) as (n & p & P' & E & HP' & Hkeys & Hlen); try assumption; try lia.
    + rewrite ksum_app, <- Ec. cbn [ksum]. rewrite Nat.sub_diag. change (p2 0) with 1. lia.
    + rewrite <- app_assoc. exact HK.
    + intros [x y] Hin. apply zset_in in Hin; [|exact Hnd]. cbn [snd]. destruct Hin as [[_ ->]|[_ Hin]].
      * split; [lia|]. rewrite Hlw, Hvw, Nat.sub_diag. change (p2 0) with 1. lia.
      * destruct (Hb _ Hin) as [B1 B2]. cbn [snd] in *. split; [lia|].
        replace (k - length y)%nat with ((prev - length y) + (k - prev))%nat by lia. rewrite p2_add. unfold c.
        pose proof (p2_pos (k - prev)). nia.
    + exists n, p, P'. split; [exact E|]. split; [exact HP'|]. split.
      * intros x. rewrite Hkeys. cbn [map fst In]. split.
        -- intros [H|H]; [|tauto]. apply in_map_iff in H. destruct H as ([a b] & Ea & H). cbn in Ea. subst a.
           apply zset_in in H; [|exact Hnd]. destruct H as [[-> _]|[_ H]]; [tauto|]. left. now apply (in_map fst) in H.
        -- intros [H|[<-|H]]; [|left; apply (in_map fst) with (x := (s, w)); apply zset_has|tauto].
           left. destruct (N.eq_dec x s) as [->|Ne]; [apply (in_map fst) with (x := (s, w)); apply zset_has|].
           clear -H Ne. induction P as [|[a b] P IH]; [destruct H|]. cbn [zset]. destruct (N.eqb_spec a s) as [->|Na].
           ++ cbn [map fst In] in *. destruct H as [H|H]; [congruence|now right].
           ++ cbn [map fst In] in *. destruct H as [H|H]; [now left|right; now apply IH].
      * intros x Hx. destruct (Hlen x Hx) as [H|H]; [|right; now right]. destruct x as [x y].
        apply zset_in in H; [|exact Hnd]. destruct H as [[-> ->]|[_ H]]; [|now left]. right. left. cbn [fst snd]. now rewrite Hlw.
Qed.

(** A list that is handed out without exception is sorted by length. *)
Lemma assign_list_sorted l : forall next prev tab r, assign_list l next prev tab = Ok r ->
  StronglySorted (fun a b => (snd a <= snd b)%nat) l /\ Forall (fun x => (prev <= snd x)%nat) l.
Proof.
  induction l as [|[s k] l IH]; intros next prev tab r H; [split; constructor|]. cbn [assign_list] in H.
  destruct (Nat.ltb_spec k prev) as [C|C]; [discriminate|]. apply bind_ok in H. destruct H as (w & _ & H).
  destruct (IH _ _ _ _ H) as [H1 H2]. split; [constructor; [exact H1|exact H2]|]. constructor; [exact C|].
  eapply Forall_impl; [|exact H2]. cbn. intros x Hx. lia.
Qed.

Lemma assign_list_unsorted l : forall next prev tab, Forall (fun x => (1 <= snd x)%nat) l -> ~ (StronglySorted (fun a b => (snd a <= snd b)%nat) l /\ Forall (fun x => (prev <= snd x)%nat) l) ->
  assign_list l next prev tab = Err ValueError.
Proof.
  induction l as [|[s k] l IH]; intros next prev tab Hl H; [exfalso; apply H; split; constructor|]. cbn [assign_list].
  inversion Hl; subst. cbn [snd] in *. destruct (Nat.ltb_spec k prev) as [C|C]; [reflexivity|]. cbv zeta.
  set (c := N.shiftl next _). rewrite brep_ok.
  2:{ intros E. apply (f_equal (@length bool)) in E. unfold bin_format in E. rewrite bits_of_length in E. cbn in E. lia. }
  cbn [bind]. apply IH; [assumption|]. intros [G1 G2]. apply H. split; [now constructor|]. constructor; [exact C|].
  eapply Forall_impl; [|exact G2]. cbn. intros x Hx. lia.
Qed.

(** ** The decoding tree *)

Inductive leaf_at : dtree -> list bool -> N -> Prop :=
| la_leaf s : leaf_at (DLeaf s) [] s
| la_l l r p s : leaf_at l p s -> leaf_at (DNode l r) (false :: p) s
| la_r l r p s : leaf_at r p s -> leaf_at (DNode l r) (true :: p) s.

Lemma comparable_cons x a b : comparable (x :: a) (x :: b) <-> comparable a b.
Proof.
  split; intros [(c & E)|(c & E)].
  - left. exists c. now inversion E.
  - right. exists c. now inversion E.
  - left. exists c. cbn. now rewrite E.
  - right. exists c. cbn. now rewrite E.
Qed.

Lemma comparable_nil a : comparable [] a.
Proof. left. now exists a. Qed.

Lemma dinsert_ok p s : forall t, (forall q x, leaf_at t q x -> incomparable q p) ->
  exists t', dinsert t p s = Ok t' /\ leaf_at t' p s /\ (forall q x, leaf_at t q x -> leaf_at t' q x) /\
    (forall q x, leaf_at t' q x -> leaf_at t q x \/ (q = p /\ x = s)).
Proof.
  induction p as [|b p IH]; intros t Ht.
  - exists (DLeaf s). cbn [dinsert]. split; [destruct t; reflexivity|]. split; [constructor|]. split.
    + intros q x H. exfalso. apply (Ht q x H). right. now exists q.
    + intros q x H. inversion H; subst. now right.
  - cbn [dinsert]. destruct t as [|x|l r].
    + destruct (IH DNone) as (t' & E & H1 & _ & H3); [intros q x H; inversion H|]. rewrite E. cbn [bind].
      exists (if b then DNode DNone t' else DNode t' DNone). split; [reflexivity|]. destruct b; (split; [now constructor|]; split; [intros q x H; inversion H|]);
        intros q x H; inversion H as [|? ? ? ? Hq|? ? ? ? Hq]; subst; try (inversion Hq; fail);
        destruct (H3 _ _ Hq) as [C|[-> ->]]; [inversion C|now right|inversion C|now right].
    + exfalso. apply (Ht [] x ltac:(constructor)). apply comparable_nil.
    + destruct b.
      * destruct (IH r) as (t' & E & H1 & H2 & H3).
        { intros q x H C. apply (Ht (true :: q) x ltac:(now constructor)). now apply comparable_cons. }
        rewrite E. cbn [bind]. exists (DNode l t'). split; [reflexivity|]. split; [now constructor|]. split.
        -- intros q x H. inversion H; subst; constructor; auto.
        -- intros q x H. inversion H as [|? ? ? ? Hq|? ? ? ? Hq]; subst; [left; now constructor|].
           destruct (H3 _ _ Hq) as [C|[-> ->]]; [left; now constructor|now right].
      * destruct (IH l) as (t' & E & H1 & H2 & H3).
        { intros q x H C. apply (Ht (false :: q) x ltac:(now constructor)). now apply comparable_cons. }
        rewrite E. cbn [bind]. exists (DNode t' r). split; [reflexivity|]. split; [now constructor|]. split.
        -- intros q x H. inversion H; subst; constructor; auto.
        -- intros q x H. inversion H as [|? ? ? ? Hq|? ? ? ? Hq]; subst; [|left; now constructor].
           destruct (H3 _ _ Hq) as [C|[-> ->]]; [left; now constructor|now right].
Qed.

Lemma dinsert_node t p s t' : (exists l r, t = DNode l r) -> p <> [] -> dinsert t p s = Ok t' -> exists l r, t' = DNode l r.
Proof.
  intros (l & r & ->) Hp H. destruct p as [|b p]; [congruence|]. cbn [dinsert] in H.
  destruct b; apply bind_ok in H; destruct H as (x & _ & H); injection H as <-; eauto.
Qed.

(** *** Reading bits *)

Lemma read_bit_ok b A R x : rd b A (x :: R) -> exists b', read_bit b = Ok (x, b') /\ rd b' (A ++ [x]) R.
Proof.
  intros H. destruct (rd_bit1 b A R x H) as (r & b' & E & Ep & H'). exists b'. split; [|exact H'].
  unfold read_bit. rewrite E. cbn [bind]. rewrite Ep. cbn [bind]. destruct x; reflexivity.
Qed.

Lemma read_bit_none b A : rd b A [] -> read_bit b = Err StandardError.
Proof. intros H. unfold read_bit. rewrite (rd_get_short b A [] 1 H) by (cbn; lia). reflexivity. Qed.

Lemma read_all_ok R : forall fuel b A, rd b A R -> (length R <= fuel)%nat -> read_all fuel b = Ok R.
Proof.
  induction R as [|x R IH]; intros fuel b A H Hf.
  - destruct fuel; cbn [read_all]; rewrite (rd_consumed _ _ _ H); reflexivity.
  - destruct fuel as [|f]; [cbn in Hf; lia|]. cbn [read_all]. rewrite (rd_consumed _ _ _ H).
    destruct (read_bit_ok b A R x H) as (b' & E & H'). rewrite E. cbn [bind].
    rewrite (IH f b' _ H') by (cbn in Hf; lia). reflexivity.
Qed.

Lemma stored_word w : exists b, bb_store bb_new (bytes_of_bits w) (length w) = Ok b /\ wr b w.
Proof. exact (rd_store_bits bb_new [] [] w wr_new). Qed.

Definition free_words (ws : list (list bool)) : Prop :=
  forall i j a b, nth_error ws i = Some a -> nth_error ws j = Some b -> i <> j -> incomparable a b.

Lemma rebuild_ok ws : forall t s, (exists l r, t = DNode l r) -> Forall (fun w => w <> []) ws -> free_words ws ->
  (forall q x w, leaf_at t q x -> In w ws -> incomparable q w) ->
  exists t', rebuild t s (map enc ws) = Ok t' /\ (exists l r, t' = DNode l r) /\
    (forall q x, leaf_at t q x -> leaf_at t' q x) /\
    (forall i w, nth_error ws i = Some w -> leaf_at t' w (s + N.of_nat i)) /\
    (forall q x, leaf_at t' q x -> leaf_at t q x \/ exists i, nth_error ws i = Some q /\ x = s + N.of_nat i).
Proof.
  induction ws as [|w ws IH]; intros t s Hn Hne Hf Ht.
  - exists t. cbn [map rebuild]. repeat split; auto. intros [|i] w H; discriminate.
  - inversion Hne; subst. cbn [map rebuild enc].
    destruct (stored_word w) as (b & E & Hb). unfold enc at 1. cbn iota beta. rewrite E. cbn [bind].
    rewrite (read_all_ok w _ b [] Hb) by (rewrite (rd_num _ _ _ Hb); cbn; lia). cbn [bind].
    destruct (dinsert_ok w s t) as (t1 & E1 & L1 & L2 & L3); [intros q x H; apply (Ht q x w H); now left|].
    rewrite E1. cbn [bind]. destruct (IH t1 (s + 1)) as (t' & E' & Hn' & M1 & M2 & M3).
    + eapply dinsert_node; eauto.
    + assumption.
    + intros i j a b' Ha Hb' Hij. apply (Hf (S i) (S j) a b' Ha Hb'). lia.
    + intros q x w' Hq Hin. destruct (L3 _ _ Hq) as [Hq'|[-> ->]]; [apply (Ht q x w' Hq'); now right|].
      destruct (In_nth_error _ _ Hin) as (i & Hi). apply (Hf 0%nat (S i) w w' eq_refl Hi). lia.
    + exists t'. split; [exact E'|]. split; [exact Hn'|]. split; [auto|]. split.
      * intros [|i] w' Hi; cbn [nth_error] in Hi.
        -- injection Hi as <-. rewrite N.add_0_r. auto.
        -- specialize (M2 i w' Hi). replace (s + N.of_nat (S i)) with (s + 1 + N.of_nat i) by lia. exact M2.
      * intros q x Hq. destruct (M3 _ _ Hq) as [Hq'|(i & Hi & ->)].
        -- destruct (L3 _ _ Hq') as [?|[-> ->]]; [now left|]. right. exists 0%nat. split; [reflexivity|lia].
        -- right. exists (S i). split; [exact Hi|lia].
Qed.

(** ** What a coder is: a list of words *)

Record good (h : huffman) (ws : list (list bool)) : Prop := {
  g_codes : h_codes h = map enc ws;
  g_ne : Forall (fun w => w <> []) ws;
  g_free : free_words ws;
  g_node : exists l r, h_tree h = DNode l r;
  g_leaf : forall i w, nth_error ws i = Some w -> leaf_at (h_tree h) w (N.of_nat i);
  g_only : forall q x, leaf_at (h_tree h) q x -> exists i, nth_error ws i = Some q /\ x = N.of_nat i
}.

Lemma zget_in {V} (P : list (N * V)) s v : zget P s = Some v -> In (s, v) P.
Proof.
  induction P as [|[x y] P IH]; cbn [zget]; [discriminate|]. destruct (N.eqb_spec x s) as [->|]; intros H; [left; congruence|right; auto].
Qed.
Lemma zget_none {V} (P : list (N * V)) s : zget P s = None <-> ~ In s (map fst P).
Proof.
  induction P as [|[x y] P IH]; cbn [zget map fst In]; [tauto|]. destruct (N.eqb_spec x s) as [->|Ne]; [split; [discriminate|tauto]|].
  rewrite IH. intuition congruence.
Qed.

Lemma zget_map P s : zget (map mk_entry P) s = option_map (fun w => (enc w, val_of w)) (zget P s).
Proof. induction P as [|[x y] P IH]; [reflexivity|]. cbn [map mk_entry zget fst snd]. destruct (x =? s); [reflexivity|exact IH]. Qed.

Lemma table_list_ok P : forall syms l, table_list (map mk_entry P) syms = Ok l ->
  exists ws, l = map (fun w => (enc w, val_of w)) ws /\ Forall2 (fun s w => In (s, w) P) syms ws.
Proof.
  induction syms as [|s syms IH]; intros l H; cbn [table_list] in H.
  - injection H as <-. exists []. split; [reflexivity|constructor].
  - rewrite zget_map in H. destruct (zget P s) as [w|] eqn:Ew; [|discriminate]. cbn [option_map] in H.
    apply bind_ok in H. destruct H as (r & Hr & H). injection H as <-. destruct (IH _ Hr) as (ws & -> & F).
    exists (w :: ws). split; [reflexivity|]. constructor; [now apply zget_in|exact F].
Qed.

Lemma table_list_total P : forall syms, (forall s, In s syms -> In s (map fst P)) -> exists l, table_list (map mk_entry P) syms = Ok l.
Proof.
  induction syms as [|s syms IH]; intros H; [eexists; reflexivity|]. cbn [table_list]. rewrite zget_map.
  destruct (zget P s) as [w|] eqn:Ew.
  - cbn [option_map]. destruct IH as (l & E); [intros x Hx; apply H; now right|]. rewrite E. eexists. reflexivity.
  - exfalso. apply zget_none in Ew. apply Ew, H. now left.
Qed.

Lemma Forall2_nth {A B} (R : A -> B -> Prop) l m : Forall2 R l m -> forall i b, nth_error m i = Some b -> exists a, nth_error l i = Some a /\ R a b.
Proof. induction 1 as [|x y l m H F IH]; intros [|i] b Hb; cbn in *; try discriminate; [exists x; split; congruence|auto]. Qed.

Lemma Forall2_len {A B} (R : A -> B -> Prop) l m : Forall2 R l m -> length l = length m.
Proof. induction 1; cbn [length]; congruence. Qed.

Lemma count_up_nth n i : (i < n)%nat -> nth_error (count_up n) i = Some (N.of_nat i).
Proof.
  intros H. unfold count_up. rewrite nth_error_map.
  assert (E : nth_error (seq 0 n) i = Some i).
  { rewrite (nth_error_nth' _ 0%nat) by (rewrite seq_length; exact H). now rewrite seq_nth by exact H. }
  now rewrite E.
Qed.

Lemma count_up_length n : length (count_up n) = n.
Proof. unfold count_up. now rewrite map_length, seq_length. Qed.

(** ** From the tree to the coder *)

Lemma okdepth_pos t : okdepth t -> (1 <= cdepth t)%nat -> Forall (fun x => (1 <= snd x)%nat) (cld t).
Proof.
  destruct t as [w s|w d a b]; cbn [cdepth cld okdepth]; intros H Hd; [lia|]. apply Forall_map.
  apply Forall_forall. intros x _. cbn. lia.
Qed.

Lemma canonical_ok order t can : okdepth t -> (1 <= cdepth t)%nat -> Permutation (order (depth_keys t)) (depth_keys t) ->
  canonical_table order t = Ok can ->
  exists ws, map fst can = map enc ws /\ Forall (fun w => w <> []) ws /\ free_words ws /\
    Forall (fun w => (length w <= cdepth t)%nat) ws /\
    (forall i w, nth_error ws i = Some w -> In (N.of_nat i, length w) (cld t)) /\
    (forall s, In s (csyms t) -> s < lenN ws).
Proof.
  intros Hd H1 Hp H. unfold canonical_table in H. apply bind_ok in H. destruct H as (tab & Ha & Ht).
  rewrite assign_all_list in Ha. apply bind_ok in Ha. destruct Ha as ([[n p] tb] & Ha & E). injection E as ->.
  set (S := sched t (order (depth_keys t))) in *. assert (HS : Permutation S (cld t)) by now apply sched_perm.
  destruct (assign_list_sorted _ _ _ _ _ Ha) as [Hs1 Hs2].
  assert (HL : Forall (fun x => (1 <= snd x <= cdepth t)%nat) S).
  { eapply Permutation_Forall; [symmetry; exact HS|]. pose proof (cld_bound t Hd) as B1. pose proof (okdepth_pos t Hd H1) as B2.
    rewrite Forall_forall in *. intros x Hx. split; auto. }
  destruct (assign_list_ok (cdepth t) S [] 0 0%nat []) as (n' & p' & P & E & HP & Hkeys & Hlen); try assumption; try constructor.
  - cbn [app]. rewrite (ksum_perm _ _ _ (Permutation_map snd HS)). rewrite cld_kraft by (assumption || lia). lia.
  - lia.
  - constructor.
  - split; [intros x []|intros x y []].
  - inversion H.
  - inversion H.
  - assert (Eq : Ok (n, p, tab) = Ok (n', p', map mk_entry P)) by (rewrite <- Ha; exact E).
    assert (tab = map mk_entry P) by (now inversion Eq). subst tab.
    destruct (table_list_ok P _ _ Ht) as (ws & -> & F). exists ws. rewrite map_map. cbn [fst]. split; [reflexivity|].
    destruct HP as (Hnd & Hne & Hinc).
    assert (Hix : forall i w, nth_error ws i = Some w -> In (N.of_nat i, w) P).
    { intros i w Hi. destruct (Forall2_nth _ _ _ F i w Hi) as (s & Es & Hin).
      assert (i < length (map mk_entry P))%nat.
      { rewrite <- (count_up_length (length (map mk_entry P))). apply nth_error_Some. congruence. }
      rewrite count_up_nth in Es by assumption. congruence. }
    repeat split.
    + apply Forall_forall. intros w Hw. destruct (In_nth_error _ _ Hw) as (i & Hi). apply (Hne _ (Hix i w Hi)).
    + intros i j a b Ea Eb Hij. apply (Hinc (N.of_nat i, a) (N.of_nat j, b)); [now apply Hix|now apply Hix|]. cbn. lia.
    + apply Forall_forall. intros w Hw. destruct (In_nth_error _ _ Hw) as (i & Hi). destruct (Hlen _ (Hix i w Hi)) as [[]|Hin].
      cbn [fst snd] in Hin. rewrite Forall_forall in HL. specialize (HL _ Hin). cbn in HL. lia.
    + intros i w Hi. destruct (Hlen _ (Hix i w Hi)) as [[]|Hin]. cbn [fst snd] in Hin. eapply Permutation_in; eauto.
    + intros s Hs. pose proof (Forall2_len _ _ _ F) as Fl. rewrite count_up_length, map_length in Fl.
      assert (Hi : incl (map fst P) (count_up (length P))).
      { apply NoDup_length_incl.
        - unfold count_up. apply FinFun.Injective_map_NoDup; [intros x y Hxy; lia|apply seq_NoDup].
        - rewrite count_up_length, map_length. lia.
        - intros x Hx. rewrite map_length in F. destruct (In_nth_error _ _ Hx) as (i & Ei).
          assert (Hil : (i < length ws)%nat). { rewrite <- Fl. rewrite <- (count_up_length (length P)). apply nth_error_Some. congruence. }
          destruct (nth_error ws i) as [w|] eqn:Ew; [|apply nth_error_None in Ew; lia].
          pose proof (Hix i w Ew) as Hin. rewrite count_up_nth in Ei by lia. injection Ei as <-. now apply (in_map fst) in Hin. }
      assert (Hk : In s (map fst P)).
      { apply Hkeys. right. unfold csyms in Hs. eapply Permutation_in; [|exact Hs]. apply Permutation_map. now symmetry. }
      apply Hi in Hk. unfold count_up in Hk. apply in_map_iff in Hk. destruct Hk as (i & <- & Hk). apply in_seq in Hk. unfold lenN. lia.
Qed.

(** Every order that is ascending will do if the symbols are 0, 1, ... *)
Lemma canonical_total order t : okdepth t -> (1 <= cdepth t)%nat -> Permutation (order (depth_keys t)) (depth_keys t) ->
  (forall s, In s (csyms t) <-> s < lenN (csyms t)) -> NoDup (csyms t) ->
  StronglySorted le (order (depth_keys t)) -> exists can, canonical_table order t = Ok can.
Proof.
  intros Hd H1 Hp Hs Hnd Hso. unfold canonical_table. rewrite assign_all_list.
  set (S := sched t (order (depth_keys t))) in *. assert (HS : Permutation S (cld t)) by now apply sched_perm.
  assert (HL : Forall (fun x => (1 <= snd x <= cdepth t)%nat) S).
  { eapply Permutation_Forall; [symmetry; exact HS|]. pose proof (cld_bound t Hd) as B1. pose proof (okdepth_pos t Hd H1) as B2.
    rewrite Forall_forall in *. intros x Hx. split; auto. }
  destruct (assign_list_ok (cdepth t) S [] 0 0%nat []) as (n' & p' & P & E & HP & Hkeys & Hlen); try assumption; try constructor.
  - cbn [app]. rewrite (ksum_perm _ _ _ (Permutation_map snd HS)). rewrite cld_kraft by (assumption || lia). lia.
  - lia.
  - constructor.
  - split; [intros x []|intros x y []].
  - inversion H.
  - inversion H.
  - subst S. clear - Hso. unfold sched. induction Hso as [|k ks Hso IH Hk]; [constructor|]. cbn [flat_map].
    assert (G : forall l, Forall (fun b => (k <= snd b)%nat) (flat_map (fun k => map (fun s => (s, k)) (sort_syms (syms_at t k))) ks) ->
       StronglySorted (fun a b : N * nat => (snd a <= snd b)%nat) (map (fun s => (s, k)) l ++ flat_map (fun k => map (fun s => (s, k)) (sort_syms (syms_at t k))) ks)).
    { intros l Hl. induction l as [|x l IHl]; [exact IH|]. cbn [map app]. constructor; [exact IHl|]. cbn [snd]. apply Forall_app. split; [|exact Hl].
      apply Forall_map. apply Forall_forall. intros y _. cbn. lia. }
    apply G. apply Forall_flat_map. eapply Forall_impl; [|exact Hk]. cbn. intros q Hq. apply Forall_map. apply Forall_forall. intros y _. exact Hq.
  - apply Forall_forall. intros x _. lia.
  - match goal with |- exists can, bind (bind ?x _) _ = _ => replace x with (Ok (n', p', map mk_entry P)) by (symmetry; exact E) end.
    cbn [bind]. apply table_list_total. intros s Hin. rewrite map_length in Hin. unfold count_up in Hin. apply in_map_iff in Hin. destruct Hin as (i & <- & Hi).
    apply in_seq in Hi. destruct HP as (HPn & _ & _).
    assert (Hk : forall s, In s (map fst P) <-> In s (csyms t)).
    { intros s. rewrite Hkeys. cbn [map In]. split.
      - intros [[]|H]. unfold csyms. eapply Permutation_in; [|exact H]. apply Permutation_map, HS.
      - intros H. right. unfold csyms in H. eapply Permutation_in; [|exact H]. apply Permutation_map. now symmetry. }
    apply Hk, Hs. assert (El : length (map fst P) = length (csyms t)).
    { apply Permutation_length, NoDup_Permutation; assumption. }
    rewrite map_length in El. unfold lenN. lia.
Qed.

Lemma canonical_unsorted order t : okdepth t -> (1 <= cdepth t)%nat -> Permutation (order (depth_keys t)) (depth_keys t) ->
  ~ StronglySorted le (order (depth_keys t)) -> canonical_table order t = Err ValueError.
Proof.
  intros Hd H1 Hp Hso. unfold canonical_table. rewrite assign_all_list.
  set (S := sched t (order (depth_keys t))) in *. assert (HS : Permutation S (cld t)) by now apply sched_perm.
  rewrite assign_list_unsorted; [reflexivity| |].
  - eapply Permutation_Forall; [symmetry; exact HS|]. now apply okdepth_pos.
  - intros [H _]. apply Hso. subst S. revert H.
    assert (Hne : Forall (fun k => sort_syms (syms_at t k) <> []) (order (depth_keys t))).
    { apply Forall_forall. intros k Hk. apply (Permutation_in _ Hp) in Hk. unfold depth_keys in Hk. apply filter_In in Hk. destruct Hk as [_ Hk].
      intros C. pose proof (sort_syms_perm (syms_at t k)) as Q. rewrite C in Q. apply Permutation_nil in Q. rewrite Q in Hk. discriminate. }
    clear - Hne. induction (order (depth_keys t)) as [|k ks IH]; intros H; [constructor|]. inversion Hne; subst. cbn [sched flat_map] in H.
    destruct (sort_syms (syms_at t k)) as [|x l] eqn:E; [congruence|]. cbn [map app] in H. inversion H as [|? ? H5 H6]; subst.
    cbn [snd] in H6. apply Forall_app in H6. destruct H6 as [_ H6]. constructor.
    + apply IH; [assumption|]. clear - H5. induction l as [|y l IHl]; [exact H5|]. cbn [map app] in H5. apply IHl. now inversion H5.
    + apply Forall_forall. intros q Hq. rewrite Forall_forall in H6, H3. specialize (H3 q Hq). destruct (sort_syms (syms_at t q)) as [|y m] eqn:Eq; [congruence|].
      apply (H6 (y, q)). apply in_flat_map. exists q. split; [exact Hq|]. rewrite Eq. now left.
Qed.

(** ** Building the tree *)

Lemma take_child_in l i x l' i' : take_child l i = Ok (x, l', i') -> Permutation (x :: l' ++ i') (l ++ i).
Proof.
  unfold take_child. destruct l as [|a l], i as [|b i]; intros H; try discriminate.
  - injection H as <- <- <-. reflexivity.
  - injection H as <- <- <-. now rewrite !app_nil_r.
  - destruct (Qle_bool _ _); injection H as <- <- <-; [reflexivity|]. apply (Permutation_middle (a :: l) i b).
Qed.

Lemma take_child_total l i : (1 <= length l + length i)%nat -> exists r, take_child l i = Ok r.
Proof. unfold take_child. destruct l as [|a l], i as [|b i]; cbn [length]; intros H; try lia; try (eexists; reflexivity). destruct (Qle_bool _ _); eexists; reflexivity. Qed.

Definition is_cnode (t : ctree) : Prop := match t with CNode _ _ _ _ => True | _ => False end.

Lemma join_ok a b : okdepth a -> okdepth b -> okdepth (join a b).
Proof. intros Ha Hb. cbn [join okdepth]. auto. Qed.

Lemma csyms_join a b : csyms (join a b) = csyms a ++ csyms b.
Proof. unfold csyms, join. cbn [cld]. rewrite map_map. cbn [fst]. apply map_app. Qed.

Lemma code_loop_ok : forall fuel l i, (length l + length i <= S fuel)%nat -> (1 <= length l + length i)%nat ->
  Forall okdepth (l ++ i) -> Forall is_cnode i ->
  exists l' i', code_loop fuel l i = Ok (l', i') /\ (length l' + length i' = 1)%nat /\ Forall okdepth (l' ++ i') /\ Forall is_cnode i' /\
    Permutation (flat_map csyms (l' ++ i')) (flat_map csyms (l ++ i)) /\ ((1 < length l + length i)%nat -> l' = []).
Proof.
  induction fuel as [|f IH]; intros l i Hn H1 Ho Hc; cbn [code_loop].
  - destruct (Nat.ltb_spec 1 (length l + length i)); [lia|]. exists l, i. repeat split; auto; lia.
  - destruct (Nat.ltb_spec 1 (length l + length i)) as [H|H]; [|exists l, i; repeat split; auto; lia].
    destruct (take_child_total l i H1) as ([[a l1] i1] & E1). rewrite E1. cbn [bind]. pose proof (take_child_in _ _ _ _ _ E1) as P1.
    assert (N1 : (length l1 + length i1 = length l + length i - 1)%nat).
    { apply Permutation_length in P1. cbn [length] in P1. rewrite !app_length in P1. lia. }
    destruct (take_child_total l1 i1) as ([[b l2] i2] & E2); [lia|]. rewrite E2. cbn [bind]. pose proof (take_child_in _ _ _ _ _ E2) as P2.
    assert (N2 : (length l2 + length i2 = length l1 + length i1 - 1)%nat).
    { apply Permutation_length in P2. cbn [length] in P2. rewrite !app_length in P2. lia. }
    assert (Q : Permutation (a :: b :: l2 ++ i2) (l ++ i)) by (etransitivity; [apply perm_skip, P2|exact P1]).
    assert (HQ : Forall okdepth (a :: b :: l2 ++ i2)) by (eapply Permutation_Forall; [symmetry; exact Q|exact Ho]).
    inversion HQ as [|? ? Ha HQ']; subst. inversion HQ' as [|? ? Hb HQ'']; subst. apply Forall_app in HQ''. destruct HQ'' as [Hl2 Hi2].
    assert (Hc2 : Forall is_cnode i2).
    { assert (C1 : Forall is_cnode i1).
      { unfold take_child in E1. destruct l as [|x l], i as [|y i]; try discriminate; try (destruct (Qle_bool _ _)); injection E1 as <- <- <-; try constructor; try assumption; now inversion Hc. }
      unfold take_child in E2. destruct l1 as [|x l1], i1 as [|y i1]; try discriminate; try (destruct (Qle_bool _ _)); injection E2 as <- <- <-; try constructor; try assumption; now inversion C1. }
    destruct (IH l2 (i2 ++ [join a b])) as (l' & i' & E & HN & HO & HC & HP & HE).
    + rewrite app_length. cbn [length]. lia.
    + rewrite app_length. cbn [length]. lia.
    + apply Forall_app. split; [exact Hl2|]. apply Forall_app. split; [exact Hi2|]. constructor; [now apply join_ok|constructor].
    + apply Forall_app. split; [exact Hc2|]. repeat constructor.
    + exists l', i'. split; [exact E|]. split; [exact HN|]. split; [exact HO|]. split; [exact HC|]. split.
      * rewrite HP. rewrite <- (flat_map_perm csyms _ _ Q). rewrite app_assoc, flat_map_app. cbn [flat_map]. rewrite app_nil_r, csyms_join, (app_assoc (csyms a)).
        apply Permutation_app_comm.
      * intros _. destruct (Nat.ltb_spec 1 (length l2 + length (i2 ++ [join a b]))) as [G|G]; [now apply HE|].
        (* a single node left: it is the new one *)
        rewrite app_length in G. cbn [length] in G.
        assert (L2 : l2 = []) by (destruct l2; [reflexivity|cbn in *; lia]). assert (I2 : i2 = []) by (destruct i2; [reflexivity|cbn in *; lia]).
        subst l2 i2. destruct f; cbn in E; congruence.
Qed.

Lemma sort_leaves_perm l : Permutation (sort_leaves l) l.
Proof.
  induction l as [|x l IH]; [constructor|]. cbn [sort_leaves fold_right]. transitivity (x :: sort_leaves l); [|now constructor].
  unfold sort_leaves. generalize (fold_right insert_leaf [] l). clear. induction l as [|y l IH]; cbn [insert_leaf]; [reflexivity|].
  destruct (leaf_leb x y); [reflexivity|]. etransitivity; [apply perm_skip, IH|apply perm_swap].
Qed.

Lemma build_tree_ok table d : (2 <= length table)%nat ->
  exists t, build_code_tree table d = Ok t /\ okdepth t /\ (1 <= cdepth t)%nat /\ Permutation (csyms t) (map fst table).
Proof.
  intros Hn. unfold build_code_tree. destruct (Nat.ltb_spec (length table) 2); [lia|]. cbv zeta.
  set (ls := sort_leaves (map (leaf_of d) table)).
  assert (Pl : Permutation ls (map (leaf_of d) table)) by apply sort_leaves_perm.
  assert (Nl : length ls = length table) by (rewrite (Permutation_length Pl), map_length; reflexivity).
  destruct (code_loop_ok (length ls) ls []) as (l' & i' & E & HN & HO & HC & HP & HE).
  - cbn [length]. lia.
  - cbn [length]. lia.
  - rewrite app_nil_r. eapply Permutation_Forall; [symmetry; exact Pl|]. apply Forall_map. apply Forall_forall. intros [s f] _. exact I.
  - constructor.
  - rewrite E. cbn [bind]. assert (l' = []) by (apply HE; cbn [length]; lia). subst l'. cbn [length app] in *.
    destruct i' as [|t [|]]; cbn [length] in HN; try lia. cbn [rev app]. exists t. split; [reflexivity|].
    inversion HO; subst. inversion HC; subst. split; [assumption|]. split; [destruct t; cbn in *; [tauto|]; lia|].
    cbn [flat_map] in HP. rewrite app_nil_r in HP. rewrite HP, app_nil_r, (flat_map_perm csyms _ _ Pl).
    clear. induction table as [|[s f] tb IH]; [constructor|]. cbn [map flat_map leaf_of]. unfold csyms at 1. cbn [cld map fst app]. now constructor.
Qed.

Lemma build_loop_inv n table : forall d t, build_loop n table d = Ok t -> exists d', build_code_tree table d' = Ok t /\ (cdepth t <= 32)%nat.
Proof.
  induction n as [|n IH]; intros d t H; [discriminate|]. cbn [build_loop] in H. apply bind_ok in H. destruct H as (t0 & E & H).
  destruct (Nat.leb_spec (cdepth t0) 32) as [L|L]; [injection H as <-; eauto|eauto].
Qed.

(** Whenever the constructor returns, it returns a good coder. *)
Theorem new_huffman_good order table h : (forall t, build_loop 1024 table 1 = Ok t -> Permutation (order (depth_keys t)) (depth_keys t)) ->
  new_huffman order table = Ok h -> exists ws, good h ws /\ Forall (fun w => (length w <= 32)%nat) ws /\
    (forall s, In s (map fst table) -> s < lenN ws).
Proof.
  intros Hord H. unfold new_huffman in H. apply bind_ok in H. destruct H as (t & Et & H). apply bind_ok in H. destruct H as (can & Ec & H).
  cbv zeta in H. apply bind_ok in H. destruct H as (d & Ed & H). injection H as <-.
  specialize (Hord t Et). destruct (build_loop_inv _ _ _ _ Et) as (dv & Eb & H32).
  assert (Hn : (2 <= length table)%nat).
  { unfold build_code_tree in Eb. destruct (Nat.ltb_spec (length table) 2); [discriminate|lia]. }
  destruct (build_tree_ok table dv Hn) as (t' & Et' & Hd & H1 & Hsy). assert (t' = t) by congruence. subst t'.
  destruct (canonical_ok order t can Hd H1 Hord Ec) as (ws & Ew & Hne & Hf & Hl & _ & Hlt). exists ws.
  destruct (rebuild_ok ws (DNode DNone DNone) 0) as (d' & Ed' & Hn' & _ & M2 & M3); [eauto|exact Hne|exact Hf| |].
  { intros q x w Hq. inversion Hq as [|? ? ? ? C|? ? ? ? C]; inversion C. }
  rewrite Ew in Ed. assert (d' = d) by congruence. subst d'. split.
  - constructor; cbn [h_codes h_tree]; auto. intros q x Hq. destruct (M3 q x Hq) as [C|(i & Hi & ->)]; [inversion C as [|? ? ? ? D|? ? ? ? D]; inversion D|].
    exists i. split; [exact Hi|lia].
  - split; [eapply Forall_impl; [|exact Hl]; cbn; intros w Hw; lia|].
    intros s Hs. apply Hlt. eapply Permutation_in; [symmetry; exact Hsy|exact Hs].
Qed.

(** ** Scaling the weights leaves the tree as it is *)

Inductive scaled (k : Q) : ctree -> ctree -> Prop :=
| sc_leaf w v s : (w == k * v)%Q -> scaled k (CLeaf w s) (CLeaf v s)
| sc_node w v d a b a' b' : (w == k * v)%Q -> scaled k a a' -> scaled k b b' -> scaled k (CNode w d a b) (CNode v d a' b').

Lemma scaled_weight k a b : scaled k a b -> (cweight a == k * cweight b)%Q.
Proof. now destruct 1. Qed.
Lemma scaled_depth k a b : scaled k a b -> cdepth a = cdepth b.
Proof. now destruct 1. Qed.
Lemma scaled_sym k a b : scaled k a b -> csym a = csym b.
Proof. now destruct 1. Qed.

Lemma scaled_le k a b a' b' : (0 < k)%Q -> (a == k * a')%Q -> (b == k * b')%Q -> Qle_bool a b = Qle_bool a' b'.
Proof.
  intros Hk Ha Hb. assert (G : (a <= b <-> a' <= b')%Q) by (rewrite Ha, Hb; apply Qmult_le_l, Hk).
  destruct (Qle_bool a b) eqn:E, (Qle_bool a' b') eqn:E'; try reflexivity.
  - apply Qle_bool_iff in E. apply G, Qle_bool_iff in E. congruence.
  - apply Qle_bool_iff in E'. apply G, Qle_bool_iff in E'. congruence.
Qed.
Lemma scaled_eq k a b a' b' : (0 < k)%Q -> (a == k * a')%Q -> (b == k * b')%Q -> Qeq_bool a b = Qeq_bool a' b'.
Proof.
  intros Hk Ha Hb. assert (G : (a == b <-> a' == b')%Q).
  { rewrite Ha, Hb. apply Qmult_inj_l. intros C. rewrite C in Hk. discriminate. }
  destruct (Qeq_bool a b) eqn:E, (Qeq_bool a' b') eqn:E'; try reflexivity.
  - apply Qeq_bool_iff in E. apply G, Qeq_bool_iff in E. congruence.
  - apply Qeq_bool_iff in E'. apply G, Qeq_bool_iff in E'. congruence.
Qed.

Section Scaling.
  Variable k : Q.
  Hypothesis Hk : (0 < k)%Q.

  Lemma leaf_leb_scaled a a' b b' : scaled k a a' -> scaled k b b' -> leaf_leb a b = leaf_leb a' b'.
  Proof.
    intros Ha Hb. unfold leaf_leb. rewrite (scaled_eq k _ _ _ _ Hk (scaled_weight _ _ _ Ha) (scaled_weight _ _ _ Hb)).
    rewrite (scaled_le k _ _ _ _ Hk (scaled_weight _ _ _ Ha) (scaled_weight _ _ _ Hb)), (scaled_sym _ _ _ Ha), (scaled_sym _ _ _ Hb). reflexivity.
  Qed.

  Lemma sort_scaled l l' : Forall2 (scaled k) l l' -> Forall2 (scaled k) (sort_leaves l) (sort_leaves l').
  Proof.
    induction 1 as [|a a' l l' Ha Hl IH]; [constructor|]. cbn [sort_leaves fold_right]. unfold sort_leaves in IH.
    revert Ha. induction IH as [|b b' m m' Hb Hm IHm]; intros Ha; cbn [insert_leaf]; [now repeat constructor|].
    rewrite (leaf_leb_scaled a a' b b') by assumption. destruct (leaf_leb a' b'); [now repeat constructor|constructor; auto].
  Qed.

  Lemma join_scaled a a' b b' : scaled k a a' -> scaled k b b' -> scaled k (join a b) (join a' b').
  Proof.
    intros Ha Hb. unfold join. rewrite (scaled_depth _ _ _ Ha), (scaled_depth _ _ _ Hb). constructor; try assumption.
    rewrite !Qred_correct, (scaled_weight _ _ _ Ha), (scaled_weight _ _ _ Hb). ring.
  Qed.

  Lemma take_scaled l l' i i' : Forall2 (scaled k) l l' -> Forall2 (scaled k) i i' ->
    (exists a a' m m' j j', take_child l i = Ok (a, m, j) /\ take_child l' i' = Ok (a', m', j') /\ scaled k a a' /\ Forall2 (scaled k) m m' /\ Forall2 (scaled k) j j') \/
    (take_child l i = Err IndexError /\ take_child l' i' = Err IndexError).
  Proof.
    intros Hl Hi. unfold take_child. destruct Hl as [|a a' l l' Ha Hl], Hi as [|b b' i i' Hb Hi]; [now right| | |]; left.
    - do 6 eexists. repeat split; eauto.
    - do 6 eexists. repeat split; eauto.
    - rewrite (scaled_le k _ _ _ _ Hk (scaled_weight _ _ _ Ha) (scaled_weight _ _ _ Hb)). destruct (Qle_bool _ _).
      + do 6 eexists. repeat split; eauto.
      + do 6 eexists. repeat split; eauto.
  Qed.

  Lemma loop_scaled f : forall l l' i i', Forall2 (scaled k) l l' -> Forall2 (scaled k) i i' ->
    match code_loop f l i, code_loop f l' i' with
    | Ok (m, j), Ok (m', j') => Forall2 (scaled k) m m' /\ Forall2 (scaled k) j j'
    | Err e, Err e' => e = e'
    | _, _ => False
    end.
  Proof.
    induction f as [|f IH]; intros l l' i i' Hl Hi; cbn [code_loop]; rewrite (Forall2_len _ _ _ Hl), (Forall2_len _ _ _ Hi).
    - destruct (1 <? _)%nat; auto.
    - destruct (1 <? _)%nat; [|auto].
      destruct (take_scaled l l' i i' Hl Hi) as [(a & a' & m & m' & j & j' & -> & -> & Ha & Hm & Hj)|[-> ->]]; [|reflexivity]. cbn [bind].
      destruct (take_scaled m m' j j' Hm Hj) as [(b & b' & n & n' & q & q' & -> & -> & Hb & Hn & Hq)|[-> ->]]; [|reflexivity]. cbn [bind].
      apply IH; [exact Hn|]. apply Forall2_app; [exact Hq|]. constructor; [now apply join_scaled|constructor].
  Qed.
End Scaling.

Lemma build_scaled table d d' : match build_code_tree table d, build_code_tree table d' with
  | Ok t, Ok t' => cdepth t = cdepth t'
  | Err e, Err e' => e = e'
  | _, _ => False
  end.
Proof.
  set (k := (inject_Z (Zpos d') / inject_Z (Zpos d))%Q).
  assert (Hk : (0 < k)%Q) by (unfold k, Qlt; cbn; lia).
  unfold build_code_tree. destruct (length table <? 2)%nat; [reflexivity|]. cbv zeta.
  assert (Hs : Forall2 (scaled k) (map (leaf_of d) table) (map (leaf_of d') table)).
  { induction table as [|[s f] tb IH]; [constructor|]. constructor; [|exact IH]. unfold leaf_of. constructor. rewrite !Qred_correct. unfold k. field.
    split; intros C; unfold Qeq in C; cbn in C; lia. }
  pose proof (sort_scaled k Hk _ _ Hs) as Hss. rewrite (Forall2_len _ _ _ Hss).
  pose proof (loop_scaled k Hk (length (sort_leaves (map (leaf_of d') table))) _ _ [] [] Hss ltac:(constructor)) as HL.
  destruct (code_loop _ _ _) as [[m j]|e], (code_loop _ (sort_leaves (map (leaf_of d') table)) _) as [[m' j']|e']; cbn [bind]; try tauto.
  destruct HL as [Hm Hj]. destruct Hm as [|? ? ? ? ? ?]; [|reflexivity].
  assert (Hr : Forall2 (scaled k) (rev j) (rev j')).
  { clear - Hj. induction Hj as [|x y j j' Hx Hj IH]; [constructor|]. cbn [rev]. apply Forall2_app; [exact IH|]. now repeat constructor. }
  destruct Hr as [|x y ? ? Hx ?]; [reflexivity|]. now apply scaled_depth in Hx.
Qed.

(** So the loop that doubles the divisor is useless: it returns the first tree
    or fails. *)
Lemma build_loop_cases n table d : (2 <= length table)%nat ->
  exists t, build_code_tree table d = Ok t /\
  build_loop (S n) table d = if (cdepth t <=? 32)%nat then Ok t else Err OverflowError.
Proof.
  intros Hn. revert d. induction n as [|n IH]; intros d; destruct (build_tree_ok table d Hn) as (t & E & _ & _ & _); exists t; (split; [exact E|]).
  - cbn [build_loop]. rewrite E. cbn [bind]. destruct (cdepth t <=? 32)%nat; reflexivity.
  - change (build_loop (S (S n)) table d) with (let* t := build_code_tree table d in if (cdepth t <=? 32)%nat then Ok t else build_loop (S n) table (xO d)).
    rewrite E. cbn [bind]. destruct (cdepth t <=? 32)%nat eqn:Ed; [reflexivity|].
    destruct (IH (xO d)) as (t' & E' & ->). pose proof (build_scaled table d (xO d)) as Hs. rewrite E, E' in Hs. rewrite <- Hs, Ed. reflexivity.
Qed.

(** ** Round trip *)

Definition word_of (ws : list (list bool)) (c : N) : list bool := nth (N.to_nat c) ws [].
Definition bits_for (ws : list (list bool)) (text : list N) : list bool := flat_map (word_of ws) text.

Lemma store_symbol_ok h ws b A R c : good h ws -> c < lenN ws -> rd b A R ->
  exists b', store_symbol h b c = Ok b' /\ rd b' A (R ++ word_of ws c).
Proof.
  intros G Hc H. unfold store_symbol. rewrite nthN_nth, (g_codes _ _ G), nth_error_map. unfold lenN in Hc.
  rewrite (nth_error_nth' ws [] (n := N.to_nat c)) by lia. cbn [option_map]. unfold enc. apply rd_store_bits, H.
Qed.

Lemma store_symbols_ok h ws text : good h ws -> Forall (fun c => c < lenN ws) text -> forall b A R, rd b A R ->
  exists b', store_symbols h b text = Ok b' /\ rd b' A (R ++ bits_for ws text).
Proof.
  intros G. induction 1 as [|c text Hc HF IH]; intros b A R H.
  - exists b. cbn. rewrite app_nil_r. auto.
  - cbn [store_symbols bits_for flat_map]. destruct (store_symbol_ok h ws b A R c G Hc H) as (b1 & E1 & H1). rewrite E1. cbn [bind].
    destruct (IH b1 A _ H1) as (b2 & E2 & H2). exists b2. split; [exact E2|]. now rewrite <- app_assoc in H2.
Qed.

Lemma walk_ok t p s : leaf_at t p s -> forall b A R n, rd b A (p ++ R) ->
  exists b', walk t b n = Ok (s, b', n + length p)%nat /\ rd b' (A ++ p) R.
Proof.
  induction 1 as [s|l r p s H IH|l r p s H IH]; intros b A R n Hb.
  - exists b. cbn [walk length app]. rewrite Nat.add_0_r, app_nil_r. auto.
  - cbn [walk app] in *. destruct (read_bit_ok b A (p ++ R) false Hb) as (b1 & E1 & H1). rewrite E1. cbn [bind].
    destruct (IH b1 _ R (S n) H1) as (b2 & E2 & H2). exists b2. rewrite E2. cbn [length]. rewrite <- app_assoc in H2. split; [do 2 f_equal; lia|exact H2].
  - cbn [walk app] in *. destruct (read_bit_ok b A (p ++ R) true Hb) as (b1 & E1 & H1). rewrite E1. cbn [bind].
    destruct (IH b1 _ R (S n) H1) as (b2 & E2 & H2). exists b2. rewrite E2. cbn [length]. rewrite <- app_assoc in H2. split; [do 2 f_equal; lia|exact H2].
Qed.

Lemma word_leaf h ws c : good h ws -> c < lenN ws -> leaf_at (h_tree h) (word_of ws c) c.
Proof.
  intros G Hc. unfold lenN in Hc. pose proof (g_leaf _ _ G (N.to_nat c) (word_of ws c)) as H. rewrite N2Nat.id in H. apply H.
  unfold word_of. apply nth_error_nth'. lia.
Qed.

Lemma word_ne ws c : Forall (fun w => w <> []) ws -> c < lenN ws -> (1 <= length (word_of ws c))%nat.
Proof.
  intros H Hc. unfold lenN in Hc. rewrite Forall_forall in H. specialize (H (word_of ws c)).
  unfold word_of in *. destruct (nth (N.to_nat c) ws []) eqn:E; [|cbn; lia].
  exfalso. apply H; [|reflexivity]. rewrite <- E. apply nth_In. lia.
Qed.

Lemma decode_loop_eof h ws : good h ws -> 256 < lenN ws -> forall text, Forall (fun c => c < lenN ws /\ c <> 256) text ->
  forall fuel b A R n out, (length text < fuel)%nat -> rd b A (bits_for ws text ++ word_of ws 256 ++ R) ->
  exists b' n', decode_loop fuel (h_tree h) true None b n out = Ok (out ++ text, b', n') /\
    rd b' (A ++ bits_for ws text ++ word_of ws 256) R.
Proof.
  intros G He. induction 1 as [|c text [Hc Hc'] HF IH]; intros fuel b A R n out Hf Hb.
  - destruct fuel as [|f]; [lia|]. cbn [decode_loop bits_for flat_map app] in *.
    destruct (walk_ok _ _ _ (word_leaf h ws 256 G He) b A R n Hb) as (b1 & E1 & H1). rewrite E1. cbn [bind andb].
    rewrite N.eqb_refl. do 2 eexists. rewrite app_nil_r. split; [reflexivity|exact H1].
  - destruct fuel as [|f]; [lia|]. cbn [decode_loop bits_for flat_map] in *. rewrite <- app_assoc in Hb.
    destruct (walk_ok _ _ _ (word_leaf h ws c G Hc) b A _ n Hb) as (b1 & E1 & H1). rewrite E1. cbn [bind andb].
    destruct (N.eqb_spec c 256) as [C|_]; [congruence|].
    destruct (IH f b1 (A ++ word_of ws c) R (n + length (word_of ws c))%nat (out ++ [c])) as (b2 & n2 & E2 & H2); [cbn in Hf; lia|exact H1|].
    exists b2, n2. rewrite E2, <- app_assoc. split; [reflexivity|]. now rewrite <- !app_assoc in *.
Qed.

Lemma bits_for_len ws text : Forall (fun w => w <> []) ws -> Forall (fun c => c < lenN ws) text -> (length text <= length (bits_for ws text))%nat.
Proof.
  intros Hne. induction 1 as [|c text Hc HF IH]; cbn [bits_for flat_map length]; [lia|]. rewrite app_length.
  pose proof (word_ne ws c Hne Hc). unfold bits_for in IH. lia.
Qed.

Lemma encode_ok h ws text : good h ws -> 256 < lenN ws -> Forall (fun c => c < lenN ws) text ->
  huff_encode h text true = Ok (bytes_of_bits (bits_for ws text ++ word_of ws 256), length (bits_for ws text ++ word_of ws 256)).
Proof.
  intros G He HF. unfold huff_encode, encode_to_bb. destruct (store_symbols_ok h ws text G HF bb_new [] [] wr_new) as (b1 & E1 & H1).
  rewrite E1. cbn [bind]. destruct (store_symbol_ok h ws b1 [] _ 256 G He H1) as (b2 & E2 & H2). rewrite E2. cbn [bind].
  unfold bb_all. destruct (rd_out _ _ _ H2) as [-> _]. rewrite (rd_num _ _ _ H2). reflexivity.
Qed.

Theorem decode_eof_ok h ws text : good h ws -> 256 < lenN ws -> Forall (fun c => c < lenN ws /\ c <> 256) text ->
  forall b A R, rd b A (bits_for ws text ++ word_of ws 256 ++ R) ->
  exists b', decode_from_bb h b true 0 = Ok (text, b') /\ rd b' (A ++ bits_for ws text ++ word_of ws 256) R.
Proof.
  intros G He HF b A R Hb. unfold decode_from_bb. cbn [negb andb Nat.eqb].
  destruct (decode_loop_eof h ws G He text HF (S (bb_num b)) b A R 0%nat []) as (b' & n' & E & H').
  - rewrite (rd_num _ _ _ Hb), app_length. pose proof (bits_for_len ws text (g_ne _ _ G)) as Hl.
    assert (Forall (fun c => c < lenN ws) text) by (eapply Forall_impl; [|exact HF]; cbn; tauto). specialize (Hl H). lia.
  - exact Hb.
  - rewrite E. cbn [bind]. exists b'. split; [reflexivity|exact H'].
Qed.
