(** * The Huffman string coder of headerdiff writes and reads the bits of the code words. *)
From Coq Require Import List NArith ZArith Bool Lia Arith Permutation ZifyN ZifyNat.
From Verif Require Import PyBase NBits Bits BB_Proofs HD_Model HDHuff_Model.
Import ListNotations.
Open Scope N_scope.
Open Scope py_scope.

(** ** Bits *)
Lemma bits_of_split n m v : bits_of (n + m) v = bits_of n (N.shiftr v (N.of_nat m)) ++ bits_of m v.
Proof.
  induction n as [|n IH]; [reflexivity|]. cbn [Nat.add bits_of app]. f_equal; [|exact IH].
  rewrite N.shiftr_spec by lia. f_equal. lia.
Qed.

Lemma bits_of_mod m v : bits_of m (v mod 2 ^ N.of_nat m) = bits_of m v.
Proof. apply bits_of_ext. intros i Hi. now rewrite N.mod_pow2_bits_low. Qed.

Lemma bits_of_cat n m a b : b < 2 ^ N.of_nat m -> bits_of (n + m) (a * 2 ^ N.of_nat m + b) = bits_of n a ++ bits_of m b.
Proof.
  intros Hb. rewrite bits_of_split. f_equal.
  - f_equal. rewrite N.shiftr_div_pow2, N.div_add_l by (apply N.pow_nonzero; lia). rewrite N.div_small by exact Hb. lia.
  - rewrite <- bits_of_mod. f_equal. rewrite N.add_comm, N.mod_add by (apply N.pow_nonzero; lia). now apply N.mod_small.
Qed.

Lemma mask_ones k : (k <= 8)%nat -> N.shiftr 255 (N.of_nat (8 - k)) = N.ones (N.of_nat k).
Proof. intros H. do 9 (destruct k as [|k]; [reflexivity|]). lia. Qed.

Lemma land_mask v k : (k <= 8)%nat -> N.land v (N.shiftr 255 (N.of_nat (8 - k))) = v mod 2 ^ N.of_nat k.
Proof. intros H. rewrite mask_ones by exact H. apply N.land_ones. Qed.

Lemma pow8_split k : (k <= 8)%nat -> 2 ^ N.of_nat (8 - k) * 2 ^ N.of_nat k = 256.
Proof. intros H. rewrite <- N.pow_add_r. replace (N.of_nat (8 - k) + N.of_nat k) with 8 by lia. reflexivity. Qed.

(** ** Writing *)
Definition enc_rep (e : bitenc) (l : list bool) : Prop :=
  (1 <= be_free e <= 8)%nat /\ be_current e < 2 ^ N.of_nat (8 - be_free e) /\ is_bytes (be_bytes e) /\
  l = bits_of_bytes (be_bytes e) ++ bits_of (8 - be_free e) (be_current e).

Lemma enc_rep_new : enc_rep bitenc_new [].
Proof. repeat split; cbn; try lia. constructor. Qed.

Lemma octet_bound cur v k : (k <= 8)%nat -> cur < 2 ^ N.of_nat (8 - k) -> cur * 2 ^ N.of_nat k + v mod 2 ^ N.of_nat k < 256.
Proof.
  intros Hk Hc. pose proof (pow8_split k Hk) as E.
  assert (Hm : v mod 2 ^ N.of_nat k < 2 ^ N.of_nat k) by (apply N.mod_lt, N.pow_nonzero; lia). nia.
Qed.

Lemma push_bits_ok v : forall fuel e l count, enc_rep e l -> (count <= fuel)%nat ->
  exists e', push_bits fuel e v count = Ok e' /\ enc_rep e' (l ++ bits_of count v).
Proof.
  induction fuel as [|fuel IH]; intros e l count R Hc.
  - assert (count = 0%nat) by lia. subst. exists e. cbn. split; [reflexivity|]. now rewrite app_nil_r.
  - destruct count as [|c0]; [exists e; cbn; split; [reflexivity|now rewrite app_nil_r]|].
    remember (S c0) as count eqn:Ec. destruct R as (Hf & Hcur & Hb & ->).
    assert (Eu : push_bits (S fuel) e v count =
      (let free := be_free e in
       if (free <=? count)%nat then
            let c := N.shiftl (be_current e) (N.of_nat free)
                     + N.land (N.shiftr v (N.of_nat (count - free))) (N.shiftr 255 (N.of_nat (8 - free))) in
            let* b := py_chr c in
            push_bits fuel (mk_bitenc (be_bytes e ++ b) 0 8) v (count - free)
          else
            Ok (mk_bitenc (be_bytes e)
                  (N.shiftl (be_current e) (N.of_nat count) + N.land v (N.shiftr 255 (N.of_nat (8 - count))))
                  (free - count)))) by (rewrite Ec; reflexivity).
    rewrite Eu. clear Eu. cbv zeta. destruct (Nat.leb_spec (be_free e) count) as [Hle|Hgt].
    + rewrite land_mask, N.shiftl_mul_pow2 by lia.
      set (w := N.shiftr v (N.of_nat (count - be_free e))).
      pose proof (octet_bound (be_current e) w (be_free e)) as Hlt. specialize (Hlt ltac:(lia) Hcur).
      unfold py_chr. rewrite (proj2 (N.ltb_lt _ _) Hlt). cbn [bind].
      destruct (IH (mk_bitenc (be_bytes e ++ [be_current e * 2 ^ N.of_nat (be_free e) + w mod 2 ^ N.of_nat (be_free e)]) 0 8)
                   ((bits_of_bytes (be_bytes e) ++ bits_of (8 - be_free e) (be_current e)) ++ bits_of (be_free e) w)
                   (count - be_free e)%nat) as (e' & E' & R').
      * repeat split; cbn [be_free be_current be_bytes]; try lia.
        -- apply is_bytes_snoc. now split.
        -- rewrite bob_snoc. change (bits_of (8 - 8) 0) with (@nil bool). rewrite app_nil_r, <- app_assoc. f_equal.
           transitivity (bits_of ((8 - be_free e) + be_free e) (be_current e * 2 ^ N.of_nat (be_free e) + w mod 2 ^ N.of_nat (be_free e)));
             [|f_equal; lia].
           rewrite bits_of_cat by (apply N.mod_lt, N.pow_nonzero; lia). f_equal. symmetry. apply bits_of_mod.
      * lia.
      * exists e'. split; [exact E'|]. replace count with (be_free e + (count - be_free e))%nat at 1 by lia.
        rewrite bits_of_split. rewrite app_assoc. exact R'.
    + eexists. split; [reflexivity|]. rewrite land_mask, N.shiftl_mul_pow2 by lia.
      assert (Hm : v mod 2 ^ N.of_nat count < 2 ^ N.of_nat count) by (apply N.mod_lt, N.pow_nonzero; lia).
      assert (Ep : 2 ^ N.of_nat (8 - (be_free e - count)) = 2 ^ N.of_nat (8 - be_free e) * 2 ^ N.of_nat count).
      { rewrite <- N.pow_add_r. f_equal. lia. }
      repeat split; cbn [be_free be_current be_bytes]; try lia; [rewrite Ep; nia|assumption|].
      rewrite <- app_assoc. f_equal. replace (8 - (be_free e - count))%nat with ((8 - be_free e) + count)%nat by lia.
      rewrite bits_of_cat by exact Hm. f_equal. symmetry. apply bits_of_mod.
Qed.

Lemma be_code_ok e l : enc_rep e l -> exists p, (p < 8)%nat /\ exists bs, be_code e = Ok bs /\ is_bytes bs /\
  bits_of_bytes bs = l ++ repeat false p.
Proof.
  intros (Hf & Hcur & Hb & ->). unfold be_code. destruct (Nat.ltb_spec (be_free e) 8) as [H|H].
  - rewrite N.shiftl_mul_pow2.
    pose proof (octet_bound (be_current e) 0 (be_free e) ltac:(lia) Hcur) as Hlt. rewrite N.mod_0_l in Hlt by (apply N.pow_nonzero; lia).
    unfold py_chr. rewrite N.add_0_r in Hlt. rewrite (proj2 (N.ltb_lt _ _) Hlt). cbn [bind].
    exists (be_free e). split; [exact H|]. eexists. split; [reflexivity|]. split; [apply is_bytes_snoc; now split|].
    rewrite bob_snoc, <- app_assoc. f_equal.
    replace 8%nat with ((8 - be_free e) + be_free e)%nat at 1 by lia.
    rewrite <- (N.add_0_r (be_current e * _)), bits_of_cat by (apply N.neq_0_lt_0, N.pow_nonzero; lia). f_equal.
    clear. induction (be_free e) as [|n IH]; [reflexivity|]. cbn [bits_of repeat]. rewrite N.bits_0. now rewrite IH.
  - exists 0%nat. split; [lia|]. exists (be_bytes e). split; [reflexivity|]. split; [exact Hb|].
    replace (8 - be_free e)%nat with 0%nat by lia. cbn [bits_of repeat]. now rewrite !app_nil_r.
Qed.

(** ** Reading *)
Definition dec_rep (code : str) (d : bitdec) (q : list bool) : Prop :=
  (1 <= bd_bit d <= 8)%nat /\ (bd_index d <= length code)%nat /\
  q = skipn (bd_bit d) (bits_of 8 (bd_current d)) ++ bits_of_bytes (skipn (bd_index d) code).

Lemma dec_rep_new code : dec_rep code bitdec_new (bits_of_bytes code).
Proof. repeat split; cbn; lia. Qed.

Lemma masks_nth k : (k < 8)%nat -> nth_error masks k = Some (2 ^ N.of_nat (7 - k)).
Proof. intros H. do 8 (destruct k as [|k]; [reflexivity|]). lia. Qed.

Lemma land_pow2 x k : (N.land x (2 ^ k) =? 0) = negb (N.testbit x k).
Proof.
  assert (E : N.land x (2 ^ k) = if N.testbit x k then 2 ^ k else 0).
  { apply N.bits_inj. intros i. rewrite N.land_spec, N.pow2_bits_eqb. destruct (N.eqb_spec k i) as [->|H].
    - destruct (N.testbit x i); [rewrite N.pow2_bits_true; reflexivity|now rewrite N.bits_0].
    - rewrite andb_false_r. destruct (N.testbit x k); [rewrite N.pow2_bits_false by congruence; reflexivity|now rewrite N.bits_0]. }
  rewrite E. destruct (N.testbit x k); cbn [negb]; [apply N.eqb_neq, N.pow_nonzero; lia|reflexivity].
Qed.

Lemma skipn_bits k x : (k < 8)%nat -> skipn k (bits_of 8 x) = N.testbit x (N.of_nat (7 - k)) :: skipn (S k) (bits_of 8 x).
Proof. intros H. do 8 (destruct k as [|k]; [reflexivity|]). lia. Qed.

Lemma next_bit_ok code d b q : dec_rep code d (b :: q) ->
  exists x d', next_bit code d = Ok (x, d') /\ (x =? 0) = negb b /\ dec_rep code d' q.
Proof.
  intros (Hb & Hi & E). unfold next_bit. destruct (Nat.leb_spec 8 (bd_bit d)) as [H8|H8].
  - replace (bd_bit d) with 8%nat in E by lia. rewrite (skipn_all2 (bits_of 8 _)) in E by now rewrite bits_of_length.
    cbn [app] in E. destruct (nth_error code (bd_index d)) as [c|] eqn:En.
    2:{ apply nth_error_None in En. rewrite skipn_all2 in E by exact En. discriminate. }
    cbn [bind bd_bit bd_current bd_index]. rewrite (masks_nth 0) by lia. eexists _, _. split; [reflexivity|].
    assert (Es : skipn (bd_index d) code = c :: skipn (S (bd_index d)) code).
    { clear - En. revert code En. induction (bd_index d) as [|n IH]; intros [|a code] En; cbn in *; try discriminate.
      - now inversion En.
      - now apply IH. }
    rewrite Es, bob_cons in E.
    change (bits_of 8 c) with (skipn 0 (bits_of 8 c)) in E. rewrite (skipn_bits 0) in E by lia. cbn [app] in E.
    injection E as E1 E2. split; [rewrite E1; apply land_pow2|].
    assert (bd_index d < length code)%nat by (apply nth_error_Some; congruence).
    repeat split; cbn [bd_bit bd_index bd_current]; try lia. exact E2.
  - cbn [bind]. rewrite (masks_nth (bd_bit d)) by lia. eexists _, _. split; [reflexivity|].
    rewrite skipn_bits in E by lia. cbn [app] in E. injection E as E1 E2. split; [rewrite E1; apply land_pow2|].
    repeat split; cbn [bd_bit bd_index bd_current]; try lia. exact E2.
Qed.

Lemma next_bit_none code d : dec_rep code d [] -> next_bit code d = Err IndexError.
Proof.
  intros (Hb & Hi & E). unfold next_bit. symmetry in E. apply app_eq_nil in E. destruct E as [E1 E2].
  assert (bd_bit d = 8)%nat.
  { apply (f_equal (@length bool)) in E1. rewrite skipn_length, bits_of_length in E1. cbn [length] in E1. lia. }
  assert (Hl : (length code <= bd_index d)%nat).
  { apply (f_equal (@length bool)) in E2. rewrite bits_of_bytes_length, skipn_length in E2. cbn [length] in E2. lia. }
  rewrite H. cbn. now rewrite (proj2 (nth_error_None code (bd_index d)) Hl).
Qed.

Lemma dec_rep_length code d q : dec_rep code d q -> (length q = 8 - bd_bit d + 8 * (length code - bd_index d))%nat.
Proof.
  intros (Hb & Hi & ->). now rewrite app_length, skipn_length, bits_of_length, bits_of_bytes_length, skipn_length.
Qed.

(** ** Trees *)
(** The leaves with the way to each of them. *)
Fixpoint paths (t : htree) : list (hsym * list bool) :=
  match t with
  | HLeaf _ s => [(s, [])]
  | HNode _ a b => map (fun x => (fst x, false :: snd x)) (paths a) ++ map (fun x => (fst x, true :: snd x)) (paths b)
  end.

Lemma encodings_paths t : forall v l,
  encodings t v l = map (fun x => (fst x, (v * 2 ^ lenN (snd x) + val_of (snd x), (l + length (snd x))%nat))) (paths t).
Proof.
  induction t as [p s|p a IHa b IHb]; intros v l.
  - cbn. do 3 f_equal; lia.
  - cbn [encodings paths]. rewrite IHa, IHb, map_app, !map_map. f_equal; apply map_ext; intros [s q]; cbn [fst snd val_of length].
    + rewrite N.shiftl_mul_pow2. unfold lenN. cbn [length]. rewrite Nat2N.inj_succ, N.pow_succ_r'. cbn [b2n].
      change (2 ^ 1) with 2. f_equal. f_equal; lia.
    + rewrite N.shiftl_mul_pow2. unfold lenN. cbn [length]. rewrite Nat2N.inj_succ, N.pow_succ_r'. cbn [b2n].
      change (2 ^ 1) with 2. f_equal. f_equal; lia.
Qed.

Lemma hsym_eqb_spec a b : reflect (a = b) (hsym_eqb a b).
Proof.
  destruct a as [x|x], b as [y|y]; cbn; try (constructor; congruence); destruct (N.eqb_spec x y); constructor; congruence.
Qed.

(** A known symbol's code is a way to it. *)
Lemma code_of_path t s : In s (map fst (paths t)) ->
  exists v p, code_of (encodings t 0 0) s = Ok (v, length p) /\ In (s, p) (paths t) /\ bits_of (length p) v = p.
Proof.
  rewrite encodings_paths. induction (paths t) as [|[x p] l IH]; cbn [map In]; [tauto|].
  intros H. cbn [code_of fst snd]. destruct (hsym_eqb_spec x s) as [->|Hne].
  - eexists _, p. split; [reflexivity|]. split; [now left|]. cbn [N.mul]. rewrite N.add_0_l. apply bits_of_val.
  - destruct IH as (v & q & E1 & E2 & E3); [destruct H; [now subst|assumption]|]. eauto 6.
Qed.

Lemma walk_ok code t : forall s p q d, In (s, p) (paths t) -> dec_rep code d (p ++ q) ->
  exists d', walk code t d = Ok (s, d') /\ dec_rep code d' q.
Proof.
  induction t as [w x|w a IHa b IHb]; intros s p q d Hin R.
  - destruct Hin as [E|[]]. inversion E; subst. eexists. split; [reflexivity|exact R].
  - cbn [paths] in Hin. apply in_app_or in Hin. cbn [walk].
    destruct Hin as [Hin|Hin]; apply in_map_iff in Hin; destruct Hin as ((x & p') & E & Hin); cbn [fst snd] in E; inversion E; subst;
      cbn [app] in R; apply next_bit_ok in R; destruct R as (y & d' & E' & Ey & R); rewrite E'; cbn [bind]; rewrite Ey; cbn [negb].
    + now apply (IHa s p').
    + now apply (IHb s p').
Qed.

Definition is_node (t : htree) : Prop := match t with HNode _ _ _ => True | _ => False end.

Lemma path_nonempty t s p : is_node t -> In (s, p) (paths t) -> p <> [].
Proof.
  destruct t as [|w a b]; [intros []|]. intros _ H. cbn [paths] in H. apply in_app_or in H.
  destruct H as [H|H]; apply in_map_iff in H; destruct H as (x & E & _); inversion E; discriminate.
Qed.

(** ** Whole strings *)
Definition known (t : htree) (s : hsym) : Prop := In s (map fst (paths t)).

Lemma push_chars_ok k s : k_encoder k = encodings (k_root k) 0 0 -> forall e l, enc_rep e l -> Forall (fun c => known (k_root k) (Chr c)) s ->
  exists e' ps, push_chars k e s = Ok e' /\ enc_rep e' (l ++ concat ps) /\
    Forall2 (fun c p => In (Chr c, p) (paths (k_root k))) s ps.
Proof.
  intros Ek. induction s as [|c s IH]; intros e l R Hs.
  - exists e, []. cbn. rewrite app_nil_r. split; [reflexivity|]. split; [exact R|constructor].
  - inversion Hs as [|? ? Hc Hs']; subst. destruct (code_of_path _ _ Hc) as (v & p & E1 & E2 & E3).
    cbn [push_chars]. rewrite Ek, E1. cbn [bind].
    destruct (push_bits_ok v (length p) e l (length p) R) as (e1 & E4 & R1); [lia|]. rewrite E4. cbn [bind].
    rewrite E3 in R1. destruct (IH e1 _ R1 Hs') as (e2 & ps & E5 & R2 & F). exists e2, (p :: ps).
    split; [exact E5|]. split; [cbn [concat]; now rewrite app_assoc|]. now constructor.
Qed.

Lemma huff_loop_ok code root eof : In (Num 256, eof) (paths root) -> is_node root -> forall s ps, Forall2 (fun c p => In (Chr c, p) (paths root)) s ps ->
  forall fuel d out q, dec_rep code d (concat ps ++ eof ++ q) -> (length s < fuel)%nat ->
  exists d', huff_loop fuel code root d out = Ok (out ++ s, N.of_nat (bd_index d')) /\ dec_rep code d' q.
Proof.
  intros He Hn s ps F. induction F as [|c p s ps Hc F IH]; intros fuel d out q R Hf; (destruct fuel as [|f]; [lia|]); cbn [huff_loop].
  - cbn [concat app] in R. destruct (walk_ok _ _ _ _ _ _ He R) as (d' & E & R'). rewrite E. cbn [bind hsym_eqb].
    rewrite N.eqb_refl. exists d'. split; [now rewrite app_nil_r|exact R'].
  - cbn [concat] in R. rewrite <- app_assoc in R. destruct (walk_ok _ _ _ _ _ _ Hc R) as (d' & E & R'). rewrite E. cbn [bind hsym_eqb].
    cbn [length] in Hf. destruct (IH f d' (out ++ [c]) q R' ltac:(lia)) as (d2 & E2 & R2). exists d2. split; [|exact R2].
    rewrite E2. now rewrite <- app_assoc.
Qed.

Lemma concat_long {A} (s : str) (ps : list (list A)) : Forall2 (fun _ p => p <> []) s ps -> (length s <= length (concat ps))%nat.
Proof.
  induction 1 as [|c p s ps Hp F IH]; cbn [concat length]; [lia|]. rewrite app_length.
  destruct p; [congruence|]. cbn [length]. lia.
Qed.

(** Encoding succeeds, and decoding what was written returns it. *)
Theorem huff_round_trip k : k_encoder k = encodings (k_root k) 0 0 -> is_node (k_root k) -> known (k_root k) (Num 256) ->
  forall s, Forall (fun c => known (k_root k) (Chr c)) s ->
  exists bs, huff_encode k s = Ok bs /\ is_bytes bs /\ forall rest, huff_decode k (bs ++ rest) = Ok (s, lenN bs).
Proof.
  intros Ek Hn He s Hs. unfold huff_encode.
  destruct (push_chars_ok k s Ek _ _ enc_rep_new Hs) as (e1 & ps & E1 & R1 & F). rewrite E1. cbn [bind app] in *.
  destruct (code_of_path _ _ He) as (v & eof & E2 & E3 & E4). rewrite Ek, E2. cbn [bind].
  destruct (push_bits_ok v (length eof) e1 _ (length eof) R1) as (e2 & E5 & R2); [lia|]. rewrite E5. cbn [bind].
  rewrite E4 in R2. destruct (be_code_ok _ _ R2) as (pad & Hp & bs & E6 & Hb & E7).
  exists bs. split; [exact E6|]. split; [exact Hb|]. intros rest. unfold huff_decode.
  pose proof (dec_rep_new (bs ++ rest)) as R. rewrite bits_of_bytes_app, E7 in R. rewrite <- !app_assoc in R.
  assert (Fp : Forall2 (fun _ p => p <> []) s ps).
  { clear - F Hn. induction F; constructor; auto. eapply path_nonempty; eauto. }
  assert (Hlen : (length (concat ps) + length eof + pad = 8 * length bs)%nat).
  { apply (f_equal (@length bool)) in E7. rewrite bits_of_bytes_length, !app_length, repeat_length in E7. lia. }
  destruct (huff_loop_ok (bs ++ rest) _ _ E3 Hn s ps F (S (8 * length (bs ++ rest))) bitdec_new [] _ R) as (d' & E8 & R').
  { pose proof (concat_long s ps Fp). rewrite app_length. lia. }
  rewrite E8. cbn [app]. f_equal. f_equal. unfold lenN. f_equal.
  pose proof (dec_rep_length _ _ _ R') as Hq. rewrite !app_length, repeat_length, bits_of_bytes_length in Hq.
  destruct R' as (Hd1 & Hd2 & _). rewrite app_length in Hd2. lia.
Qed.

(** What is read never takes the loop more turns than there are bits. *)
Lemma walk_consumes code t : forall d q, dec_rep code d q ->
  match walk code t d with
  | Ok (_, d') => exists q', dec_rep code d' q' /\ (length q' <= length q)%nat /\ (is_node t -> length q' < length q)%nat
  | Err e => e = IndexError
  end.
Proof.
  induction t as [w x|w a IHa b IHb]; intros d q R; cbn [walk].
  - exists q. repeat split; try apply R; try lia. intros [].
  - destruct q as [|x q]; [now rewrite next_bit_none|]. apply next_bit_ok in R. destruct R as (y & d' & E & Ey & R).
    rewrite E. cbn [bind]. destruct (y =? 0).
    + specialize (IHa d' q R). destruct (walk code a d') as [[s d2]|]; [|exact IHa].
      destruct IHa as (q' & R' & H & _). exists q'. split; [exact R'|]. cbn [length]. split; lia.
    + specialize (IHb d' q R). destruct (walk code b d') as [[s d2]|]; [|exact IHb].
      destruct IHb as (q' & R' & H & _). exists q'. split; [exact R'|]. cbn [length]. split; lia.
Qed.

Lemma huff_loop_total code root : is_node root -> forall fuel d q out, dec_rep code d q -> (length q < fuel)%nat ->
  (exists s n, huff_loop fuel code root d out = Ok (s, n) /\ n <= lenN code) \/ huff_loop fuel code root d out = Err IndexError.
Proof.
  intros Hn. induction fuel as [|f IH]; intros d q out R Hf; [lia|]. cbn [huff_loop].
  pose proof (walk_consumes code root d q R) as W. destruct (walk code root d) as [[s d']|e]; [|subst; now right].
  destruct W as (q' & R' & H1 & H2). specialize (H2 Hn). cbn [bind]. destruct (hsym_eqb s (Num 256)).
  - left. eexists _, _. split; [reflexivity|]. destruct R' as (_ & Hi & _). unfold lenN. lia.
  - eapply IH; [exact R'|lia].
Qed.
