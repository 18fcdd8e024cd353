(** * headerdiff decoder on octets no encoder made, and on beginnings of
      frames: lemmas for C74 and C75. *)
From Coq Require Import String List NArith ZArith Bool Lia.
From Verif Require Import PyBase PyStr HD_Model HD_Spec HD_Session.
Import ListNotations.
Open Scope N_scope.
Open Scope py_scope.

(** ** Integers *)
Definition cutting {A} (r : str -> res (A * str)) (a b : str) : Prop :=
  r (a ++ b) = Err IndexError \/
  exists v s, r (a ++ b) = Ok (v, s) /\ (length s <= length (a ++ b))%nat /\
    ((exists a', r a = Ok (v, a') /\ s = a' ++ b) \/ r a = Err IndexError).

Lemma hdigits_cut a b : forall x v f, cutting (hd_read_digits x v f) a b.
Proof.
  induction a as [|y a IH]; intros x v f.
  - unfold cutting. cbn [app].
    cut (hd_read_digits x v f b = Err IndexError \/
      exists w s, hd_read_digits x v f b = Ok (w, s) /\ (length s <= length b)%nat /\
        (0 <? N.land x 128 = false -> s = b)).
    { intros [H|(w & s & H & Hl & Hs)]; [now left|right]. exists w, s. split; [exact H|]. split; [exact Hl|].
      cbn [hd_read_digits]. destruct (0 <? N.land x 128) eqn:E; [now right|left]. exists [].
      assert (s = b) by auto. subst s. split; [|reflexivity].
      destruct b; cbn [hd_read_digits] in H; rewrite E in H; congruence. }
    revert x v f. induction b as [|y b IH]; intros x v f; cbn [hd_read_digits].
    + destruct (0 <? N.land x 128); [now left|right]. do 2 eexists. split; [reflexivity|]. split; [apply Nat.le_refl|auto].
    + destruct (0 <? N.land x 128).
      * destruct (IH y (v + N.land x 127 * f) (f * 128)) as [H|(w & s & H & Hl & _)]; [now left|right].
        exists w, s. split; [exact H|]. split; [cbn [length]; lia|discriminate].
      * right. do 2 eexists. split; [reflexivity|]. split; [apply Nat.le_refl|auto].
  - unfold cutting. cbn [app hd_read_digits]. destruct (0 <? N.land x 128).
    + destruct (IH y (v + N.land x 127 * f) (f * 128)) as [H|(w & s & H & Hl & Hs)]; [now left|right].
      exists w, s. split; [exact H|]. split; [cbn [length]; lia|exact Hs].
    + right. do 2 eexists. split; [reflexivity|]. split; [apply Nat.le_refl|]. left. eexists. split; reflexivity.
Qed.

Lemma hbyte_cut a b : cutting hd_byte a b.
Proof.
  unfold cutting. destruct a as [|x a]; cbn [app hd_byte].
  - destruct b as [|x b]; [now left|right]. do 2 eexists. split; [reflexivity|]. split; [cbn; lia|now right].
  - right. do 2 eexists. split; [reflexivity|]. split; [cbn; lia|left; eauto].
Qed.

Lemma cutting_bind {A B} (r : str -> res (A * str)) (k : A -> str -> res (B * str)) a b :
  cutting r a b -> (forall v a' b', cutting (k v) a' b') ->
  cutting (fun s => let* (v, s) := r s in k v s) a b.
Proof.
  intros Hr Hk. unfold cutting in *. destruct Hr as [H|(v & s & H & L & Hs)].
  - left. rewrite H. reflexivity.
  - rewrite H. cbn [bind]. destruct Hs as [(a' & Ea & ->)|Ea].
    + rewrite Ea. cbn [bind]. destruct (Hk v a' b) as [H2|(w & s2 & H2 & L2 & Hs2)]; [now left|right].
      exists w, s2. split; [exact H2|]. split; [lia|exact Hs2].
    + rewrite Ea. cbn [bind]. destruct (Hk v s []) as [H2|(w & s2 & H2 & L2 & _)]; rewrite app_nil_r in *; [now left|right].
      exists w, s2. split; [exact H2|]. split; [lia|now right].
Qed.

Lemma cutting_ok {A} (v : A) a b : cutting (fun s => Ok (v, s)) a b.
Proof. right. do 2 eexists. split; [reflexivity|]. split; [apply Nat.le_refl|left; eauto]. Qed.

Lemma hint_cut x p a b : In p [0; 4; 5; 14] -> cutting (hd_read_int x p) a b.
Proof.
  intros Hp. unfold cutting, hd_read_int.
  assert (K : forall m value (a b : str), cutting (fun s => if value =? m then
     let* (y, s) := hd_byte s in hd_read_digits y m 1 s else Ok (value, s)) a b).
  { intros m value a0 b0. destruct (value =? m).
    - apply (cutting_bind hd_byte (fun y s => hd_read_digits y m 1 s)); [apply hbyte_cut|]. intros. apply hdigits_cut.
    - apply cutting_ok. }
  cbn in Hp. destruct Hp as [<-|[<-|[<-|[<-|[]]]]]; cbn [HD_MAX bind N.leb N.sub N.compare Pos.compare Pos.compare_cont Pos.sub Pos.sub_mask].
  - apply K.
  - apply K.
  - apply K.
  - change (14 <=? 8) with false. cbv iota. change (14 - 8) with 6. cbn [HD_MAX bind].
    assert (K2 : forall a b, cutting (fun s => let* (b2, s) := hd_byte s in
      Ok (N.lor (N.shiftl (N.land x 63) 8) (N.land b2 255), s)) a b).
    { intros. apply (cutting_bind hd_byte (fun b2 s => Ok (N.lor (N.shiftl (N.land x 63) 8) (N.land b2 255), s)));
        [apply hbyte_cut|]. intros. apply cutting_ok. }
    apply (cutting_bind _ (fun value s => if value =? 16383 then
       let* (y, s) := hd_byte s in hd_read_digits y 16383 1 s else Ok (value, s)) _ _ (K2 a b)).
    intros. apply K.
Qed.

Lemma hint_nil x : hd_read_int x 0 [] = Err IndexError.
Proof. unfold hd_read_int. cbn [HD_MAX bind N.leb N.compare]. rewrite N.land_0_r. reflexivity. Qed.

(** ** Strings

    [short] says whether a string may be accepted without its end. *)
Definition str_cut (cfg : hcfg) (short : Prop) (a b : str) : Prop :=
  hd_literal cfg (a ++ b) = Err IndexError \/
  exists v s, hd_literal cfg (a ++ b) = Ok (v, s) /\ (length s <= length (a ++ b))%nat /\
    ((exists a', hd_literal cfg a = Ok (v, a') /\ s = a' ++ b) \/ hd_literal cfg a = Err IndexError \/
     (short /\ exists j, (j < length v)%nat /\ (j + length b = length v + length s)%nat /\
        hd_literal cfg a = Ok (firstn j v, []))).

Definition cut_reader (cfg : hcfg) (short : Prop) : Prop :=
  (forall a b, str_cut cfg short a b) /\ hd_literal cfg [] = Err IndexError.

Lemma plain_literal cfg s : h_read cfg = hd_read_plain ->
  hd_literal cfg s = let* (n, r) := hd_read_int 0 0 s in Ok (takeN n r, dropN n r).
Proof.
  intros Hr. unfold hd_literal. rewrite Hr. unfold hd_read_plain.
  destruct (hd_read_int 0 0 s) as [[n r]|] eqn:E; cbn [bind]; [|reflexivity].
  do 2 f_equal.
  assert (Hs : exists p, s = p ++ r).
  { unfold hd_read_int in E. cbn in E. destruct s as [|x s]; cbn [hd_byte bind] in E; [discriminate|].
    revert E. generalize 0 at 1. generalize 1. intros f v. revert x f v. induction s as [|y s IH]; intros x f v E; cbn [hd_read_digits] in E.
    - destruct (0 <? N.land x 128); [discriminate|]. exists [x]. cbn. congruence.
    - destruct (0 <? N.land x 128).
      + destruct (IH _ _ _ E) as (p & Hp). exists (x :: p). cbn [app]. now rewrite Hp.
      + exists [x]. cbn. congruence. }
  destruct Hs as (p & ->). rewrite !dropN_skipn. unfold lenN. rewrite app_length.
  replace (N.of_nat (length p + length r) - N.of_nat (length r) + n) with (N.of_nat (length p) + n) by lia.
  rewrite N2Nat.inj_add, Nat2N.id. rewrite skipn_app, skipn_all2 by lia.
  replace (length p + N.to_nat n - length p)%nat with (N.to_nat n) by lia. reflexivity.
Qed.

Lemma plain_cut cfg : h_read cfg = hd_read_plain -> cut_reader cfg True.
Proof.
  intros Hr. split.
  - intros a b. unfold str_cut. rewrite !(plain_literal cfg _ Hr).
    destruct (hint_cut 0 0 a b (or_introl eq_refl)) as [H|(n & s & H & L & Hs)]; rewrite H; cbn [bind]; [now left|right].
    do 2 eexists. split; [reflexivity|]. rewrite takeN_firstn, dropN_skipn. split.
    { rewrite skipn_length. lia. }
    destruct Hs as [(a' & Ea & ->)|Ea]; rewrite Ea; cbn [bind]; [|right; now left].
    rewrite takeN_firstn, dropN_skipn. set (k := N.to_nat n).
    rewrite !firstn_app, !skipn_app.
    destruct (Nat.le_gt_cases k (length a')) as [Hk|Hk].
    + left. exists (skipn k a'). replace (k - length a')%nat with 0%nat by lia.
      cbn [firstn skipn]. rewrite app_nil_r. split; reflexivity.
    + rewrite (firstn_all2 a') by lia. rewrite (skipn_all2 a') by lia. cbn [app].
      destruct b as [|y b].
      * left. exists []. rewrite firstn_nil, skipn_nil, app_nil_r. split; reflexivity.
      * right. right. split; [exact I|]. exists (length a'). split; [|split].
        { rewrite app_length. destruct (k - length a')%nat eqn:E; [lia|]. cbn [firstn length]. lia. }
        { rewrite app_length, firstn_length, skipn_length. lia. }
        rewrite firstn_app, firstn_all, Nat.sub_diag. cbn [firstn]. rewrite app_nil_r. reflexivity.
  - rewrite (plain_literal cfg _ Hr). reflexivity.
Qed.

(** ** One header *)
Section One.
  Variable cfg : hcfg.
  Variable short : Prop.
  Hypothesis HC : cut_reader cfg short.

  Lemma name_cut q d b0 prefix subst a b : In prefix [0; 4; 5; 14] ->
    (exists d1, decode_name cfg q d b0 prefix subst (a ++ b) = (d1, Err IndexError)) \/
    exists d1 x s, decode_name cfg q d b0 prefix subst (a ++ b) = (d1, Ok (x, s)) /\ (length s <= length (a ++ b))%nat /\
      ((exists a', decode_name cfg q d b0 prefix subst a = (d1, Ok (x, a')) /\ s = a' ++ b) \/
       (exists d2, decode_name cfg q d b0 prefix subst a = (d2, Err IndexError)) \/
       (exists d2 y, decode_name cfg q d b0 prefix subst a = (d2, Ok (y, [])))).
  Proof.
    intros Hp. unfold decode_name. destruct (0 <? N.land b0 64).
    - destruct (hint_cut b0 prefix a b Hp) as [H|(ri & s & H & L & Hs)]; rewrite H; cbn [bind]; [left; eauto|].
      destruct (at_index (hd_tbl d) ri) as [h|e] eqn:En; cbn [bind].
      2:{ unfold at_index in En. destruct (nthN (hd_tbl d) ri); [discriminate|].
          assert (e = IndexError) as -> by congruence. left; eauto. }
      destruct Hs as [(a' & Ea & ->)|Ea]; rewrite Ea; cbn [bind].
      + rewrite En. cbn [bind].
        destruct (hint_cut b0 0 a' b (or_introl eq_refl)) as [H2|(pl & s2 & H2 & L2 & Hs2)]; rewrite H2; cbn [bind]; [left; eauto|right].
        do 3 eexists. split; [reflexivity|]. split; [lia|].
        destruct Hs2 as [(a2 & Ea2 & ->)|Ea2]; rewrite Ea2; cbn [bind]; [left; eauto|right; left; eauto].
      + destruct (hint_cut b0 0 s [] (or_introl eq_refl)) as [H2|(pl & s2 & H2 & L2 & _)]; rewrite app_nil_r in *;
          rewrite H2; cbn [bind]; [left; eauto|right].
        do 3 eexists. split; [reflexivity|]. split; [lia|]. right. left. eauto.
    - destruct (hint_cut b0 prefix a b Hp) as [H|(ref & s & H & L & Hs)]; rewrite H; [left; eauto|].
      assert (KS : forall (n : str) (a b : str),
        (let r := fun s => if subst then let* (ri, s) := hd_read_int b0 0 s in Ok (n, ri, 0, s) else Ok (n, 0, 0, s) in
         cutting r a b)).
      { intros n a0 b0'. cbv zeta. destruct subst.
        - apply (cutting_bind (hd_read_int b0 0) (fun ri s => Ok (n, ri, 0, s))).
          + apply hint_cut. now left.
          + intros. apply (cutting_ok (n, v, 0)).
        - apply (cutting_ok (n, 0, 0)). }
      cbv zeta in KS. destruct (ref =? 0) eqn:E0.
      + destruct Hs as [(a' & Ea & ->)|Ea].
        * rewrite Ea, ?E0. destruct (proj1 HC a' b) as [H2|(n & s2 & H2 & L2 & Hs2)]; rewrite H2; [left; eexists; reflexivity|].
          cbn [bind].
          destruct Hs2 as [(a2 & Ea2 & ->)|Hs2].
          -- rewrite Ea2. cbn [bind].
             destruct (KS n a2 b) as [H3|(x & s3 & H3 & L3 & Hs3)]; rewrite H3; [left; eauto|right].
             do 3 eexists. split; [reflexivity|]. split; [lia|].
             destruct Hs3 as [(a3 & Ea3 & ->)|Ea3]; rewrite Ea3; [left; eauto|right; left; eauto].
          -- destruct (KS n s2 []) as [H3|(x & s3 & H3 & L3 & _)]; rewrite app_nil_r in *; rewrite H3; [left; eauto|right].
             do 3 eexists. split; [reflexivity|]. split; [lia|]. right.
             destruct Hs2 as [Ea2|(_ & j & _ & _ & Ea2)]; rewrite Ea2; cbn [bind]; [left; eauto|].
             destruct subst; [left; eexists; rewrite hint_nil; reflexivity|right; eauto].
        * rewrite Ea, ?E0. destruct (proj1 HC s []) as [H2|(n & s2 & H2 & L2 & _)]; rewrite app_nil_r in *; rewrite H2; [left; eexists; reflexivity|].
          cbn [bind].
          destruct (KS n s2 []) as [H3|(x & s3 & H3 & L3 & _)]; rewrite app_nil_r in *; rewrite H3; [left; eauto|right].
          do 3 eexists. split; [reflexivity|]. split; [lia|]. right. left. eauto.
      + destruct (at_index (d_names q d) (ref - 1)) as [n|e] eqn:En; cbn [bind].
        2:{ unfold at_index in En. destruct (nthN (d_names q d) (ref - 1)); [discriminate|].
            assert (e = IndexError) as -> by congruence. left; eauto. }
        destruct Hs as [(a' & Ea & ->)|Ea]; rewrite Ea, ?E0.
        * rewrite En. cbn [bind].
          destruct (KS n a' b) as [H3|(x & s3 & H3 & L3 & Hs3)]; rewrite H3; [left; eauto|right].
          do 3 eexists. split; [reflexivity|]. split; [lia|].
          destruct Hs3 as [(a3 & Ea3 & ->)|Ea3]; rewrite Ea3; [left; eauto|right; left; eauto].
        * destruct (KS n s []) as [H3|(x & s3 & H3 & L3 & _)]; rewrite app_nil_r in *; rewrite H3; [left; eauto|right].
          do 3 eexists. split; [reflexivity|]. split; [lia|]. right. left. eauto.
  Qed.

  Lemma decode_name_same q d b0 prefix subst s d' r : decode_name cfg q d b0 prefix subst s = (d', r) ->
    hd_tbl d' = hd_tbl d /\ hd_size d' = hd_size d.
  Proof. apply decode_name_tbl. Qed.

  Lemma zlen_firstn_le (j : nat) (v : str) : (zlen (firstn j v) <= zlen v)%Z.
  Proof. unfold zlen. rewrite firstn_length. lia. Qed.

  (** One header of the message. *)
  Lemma hone_cut q d a b :
    (exists d1 x, decode_one cfg q d (a ++ b) = (d1, Err x) /\ (x = IndexError \/ x = GenericException /\ (h_max cfg < hd_size d)%Z)) \/
    exists d1 h s, decode_one cfg q d (a ++ b) = (d1, Ok (h, s)) /\ (length s < length (a ++ b))%nat /\
      (hd_size d <= h_max cfg)%Z /\
      ((exists a', decode_one cfg q d a = (d1, Ok (h, a')) /\ s = a' ++ b) \/
       (exists d2, decode_one cfg q d a = (d2, Err IndexError)) \/
       (short /\ exists d2 j, (j < length (snd h))%nat /\ (j + length b = length (snd h) + length s)%nat /\
          (hd_size d2 <= hd_size d1)%Z /\
          decode_one cfg q d a = (d2, Ok ((fst h, firstn j (snd h)), [])))).
  Proof.
    unfold decode_one. destruct (Z.ltb_spec (h_max cfg) (hd_size d)) as [Hx|Hx].
    { left. do 2 eexists. split; [reflexivity|]. right. auto. }
    destruct a as [|b0 a].
    { (* nothing arrives *)
      cbn [app hd_byte]. destruct b as [|b0 b]; [left; do 2 eexists; split; [reflexivity|now left]|].
      cbn [hd_byte]. destruct (0 <? N.land b0 128).
      - assert (K : cutting (fun s => if 0 <? N.land b0 64 then let* (i, s) := hd_read_int b0 14 s in Ok (i + 64, s)
           else Ok (N.land b0 63, s)) b []).
        { destruct (0 <? N.land b0 64); [|apply cutting_ok].
          apply (cutting_bind (hd_read_int b0 14) (fun i s => Ok (i + 64, s))); [apply hint_cut; cbn; tauto|].
          intros. apply cutting_ok. }
        destruct K as [K|(i & s & K & L & _)]; rewrite app_nil_r in *; rewrite K; cbn [bind];
          [left; do 2 eexists; split; [reflexivity|now left]|].
        unfold at_index. destruct (nthN (hd_tbl d) i); cbn [bind]; [|left; do 2 eexists; split; [reflexivity|now left]].
        right. do 3 eexists. split; [reflexivity|]. split; [cbn [length]; lia|]. split; [exact Hx|]. right. left. eauto.
      - set (incr := N.land b0 48 =? 32). set (sb := N.land b0 48 =? 48).
        assert (Hp : In (if incr || sb then 4 else 5) [0; 4; 5; 14]) by (destruct (incr || sb); cbn; tauto).
        destruct (name_cut q d b0 _ sb b [] Hp) as [(d1 & Hn)|(d1 & x & s & Hn & L & _)]; rewrite app_nil_r in *; rewrite Hn.
        { left. do 2 eexists. split; [reflexivity|now left]. }
        destruct x as [[nm ri] pl].
        destruct (proj1 HC s []) as [H2|(v & s2 & H2 & L2 & _)]; rewrite app_nil_r in *; rewrite H2; cbn [bind].
        { left. do 2 eexists. split; [reflexivity|now left]. }
        assert (KV : forall w : str, (if N.land b0 64 =? 64 then let* h := at_index (hd_tbl d1) ri in Ok (takeN pl (snd h) ++ w) else Ok w) = Err IndexError \/
          exists u, (if N.land b0 64 =? 64 then let* h := at_index (hd_tbl d1) ri in Ok (takeN pl (snd h) ++ w) else Ok w) = Ok u).
        { intros w. destruct (N.land b0 64 =? 64); [|eauto]. unfold at_index. destruct (nthN (hd_tbl d1) ri); cbn [bind]; eauto. }
        destruct (KV v) as [E|(u & E)]; rewrite E; cbn [bind].
        { left. do 2 eexists. split; [reflexivity|now left]. }
        destruct sb.
        + unfold at_index. destruct (nthN (hd_tbl d1) ri).
          * right. do 3 eexists. split; [reflexivity|]. split; [cbn [length]; lia|]. split; [exact Hx|]. right. left. eauto.
          * left. do 2 eexists. split; [reflexivity|now left].
        + destruct incr; right; do 3 eexists; (split; [reflexivity|]); (split; [cbn [length]; lia|]); (split; [exact Hx|]); right; left; eauto. }
    cbn [app hd_byte]. destruct (0 <? N.land b0 128).
    - assert (K : cutting (fun s => if 0 <? N.land b0 64 then let* (i, s) := hd_read_int b0 14 s in Ok (i + 64, s)
           else Ok (N.land b0 63, s)) a b).
      { destruct (0 <? N.land b0 64); [|apply cutting_ok].
        apply (cutting_bind (hd_read_int b0 14) (fun i s => Ok (i + 64, s))); [apply hint_cut; cbn; tauto|].
        intros. apply cutting_ok. }
      destruct K as [K|(i & s & K & L & Hs)]; rewrite K; cbn [bind];
        [left; do 2 eexists; split; [reflexivity|now left]|].
      destruct (at_index (hd_tbl d) i) as [h|e] eqn:En; cbn [bind].
      2:{ unfold at_index in En. destruct (nthN (hd_tbl d) i); [discriminate|].
          assert (e = IndexError) as -> by congruence. left; do 2 eexists; split; [reflexivity|now left]. }
      right. do 3 eexists. split; [reflexivity|]. split; [cbn [length]; lia|]. split; [exact Hx|].
      destruct Hs as [(a' & Ea & ->)|Ea]; rewrite Ea; cbn [bind]; [|right; left; eauto].
      rewrite En. cbn [bind]. left. eauto.
    - set (incr := N.land b0 48 =? 32). set (sb := N.land b0 48 =? 48).
      assert (Hp : In (if incr || sb then 4 else 5) [0; 4; 5; 14]) by (destruct (incr || sb); cbn; tauto).
      (* the second half on whatever [decode_name] left *)
      set (rest := fun (d1 : hdec) (x : str * N * N) (s : str) =>
        let '(nm, ri, pl) := x in
        match (let* (v, s) := hd_literal cfg s in
               let* v := if N.land b0 64 =? 64 then let* h := at_index (hd_tbl d1) ri in Ok (takeN pl (snd h) ++ v) else Ok v in
               Ok (v, s)) with
        | Err e => (d1, Err e)
        | Ok (v, s) =>
            if sb then
              match at_index (hd_tbl d1) ri with
              | Err e => (d1, Err e)
              | Ok h => (set_d_tbl d1 (update_nth (N.to_nat ri) (fun _ => (nm, v)) (hd_tbl d1))
                           (hd_size d1 + (zlen v - zlen (snd h))), Ok ((nm, v), s))
              end
            else if incr then (set_d_tbl d1 (hd_tbl d1 ++ [(nm, v)]) (hd_size d1 + zlen v), Ok ((nm, v), s))
            else (d1, Ok ((nm, v), s))
        end).
      assert (KR : forall d1 x a b,
        (exists d2, rest d1 x (a ++ b) = (d2, Err IndexError)) \/
        exists d2 h s, rest d1 x (a ++ b) = (d2, Ok (h, s)) /\ (length s <= length (a ++ b))%nat /\
          ((exists a', rest d1 x a = (d2, Ok (h, a')) /\ s = a' ++ b) \/
           (exists d3, rest d1 x a = (d3, Err IndexError)) \/
           (short /\ exists d3 j, (j < length (snd h))%nat /\ (j + length b = length (snd h) + length s)%nat /\
              (hd_size d3 <= hd_size d2)%Z /\ rest d1 x a = (d3, Ok ((fst h, firstn j (snd h)), []))))).
      { clear a b. intros d1 [[nm ri] pl] a b. unfold rest.
        destruct (proj1 HC a b) as [H2|(v & s2 & H2 & L2 & Hs2)]; rewrite H2; cbn [bind]; [left; eauto|].
        assert (KV : (forall w : str, (if N.land b0 64 =? 64 then let* h := at_index (hd_tbl d1) ri in Ok (takeN pl (snd h) ++ w) else Ok w) = Err IndexError) \/
          exists p, forall w : str, (if N.land b0 64 =? 64 then let* h := at_index (hd_tbl d1) ri in Ok (takeN pl (snd h) ++ w) else Ok w) = Ok (p ++ w)).
        { destruct (N.land b0 64 =? 64); [|right; exists []; reflexivity]. unfold at_index. destruct (nthN (hd_tbl d1) ri); cbn [bind]; eauto. }
        destruct KV as [E|(p & E)]; [rewrite E; cbn [bind]; left; eauto|].
        rewrite (E v). cbn [bind].
        assert (KI : sb = true -> at_index (hd_tbl d1) ri = Err IndexError \/ exists h, at_index (hd_tbl d1) ri = Ok h).
        { intros _. unfold at_index. destruct (nthN (hd_tbl d1) ri); eauto. }
        destruct sb eqn:Esb.
        - destruct (KI eq_refl) as [E2|(h & E2)]; rewrite E2 in E |- *; [left; eauto|right]. cbn [bind] in E |- *.
          do 3 eexists. split; [reflexivity|]. split; [lia|].
          destruct Hs2 as [(a2 & Ea2 & ->)|[Ea2|(Hsh & j & J1 & J2 & Ea2)]]; rewrite Ea2; cbn [bind].
          + left. rewrite (E v). cbn [bind]. rewrite ?E2. eauto.
          + right. left. eauto.
          + right. right. split; [exact Hsh|]. rewrite (E (firstn j v)). cbn [bind]. rewrite ?E2.
            eexists. exists (length p + j)%nat. cbn [fst snd]. rewrite app_length. split; [lia|]. split; [lia|].
            rewrite firstn_app_2. split; [|reflexivity]. cbn [set_d_tbl hd_size].
            unfold zlen. rewrite !app_length, firstn_length. lia.
        - destruct incr eqn:Ein.
          + right. do 3 eexists. split; [reflexivity|]. split; [lia|].
            destruct Hs2 as [(a2 & Ea2 & ->)|[Ea2|(Hsh & j & J1 & J2 & Ea2)]]; rewrite Ea2; cbn [bind].
            * left. rewrite (E v). cbn [bind]. eauto.
            * right. left. eauto.
            * right. right. split; [exact Hsh|]. rewrite (E (firstn j v)). cbn [bind].
              eexists. exists (length p + j)%nat. cbn [fst snd]. rewrite app_length. split; [lia|]. split; [lia|].
              rewrite firstn_app_2. split; [|reflexivity]. cbn [set_d_tbl hd_size].
              unfold zlen. rewrite !app_length, firstn_length. lia.
          + right. do 3 eexists. split; [reflexivity|]. split; [lia|].
            destruct Hs2 as [(a2 & Ea2 & ->)|[Ea2|(Hsh & j & J1 & J2 & Ea2)]]; rewrite Ea2; cbn [bind].
            * left. rewrite (E v). cbn [bind]. eauto.
            * right. left. eauto.
            * right. right. split; [exact Hsh|]. rewrite (E (firstn j v)). cbn [bind].
              eexists. exists (length p + j)%nat. cbn [fst snd]. rewrite app_length. split; [lia|]. split; [lia|].
              rewrite firstn_app_2. split; [|reflexivity]. lia. }
      assert (Enil : forall d1 x, exists d3, rest d1 x [] = (d3, Err IndexError)).
      { intros d1 [[nm ri] pl]. unfold rest. rewrite (proj2 HC). cbn [bind]. eauto. }
      assert (EQ : forall s, match decode_name cfg q d b0 (if incr || sb then 4 else 5) sb s with
          | (d0, Err e) => (d0, Err e)
          | (d0, Ok (name, ri, pl, s0)) =>
              match (let* (v, s1) := hd_literal cfg s0 in
                     let* v0 := if N.land b0 64 =? 64 then let* h := at_index (hd_tbl d0) ri in Ok (takeN pl (snd h) ++ v) else Ok v in
                     Ok (v0, s1)) with
              | Err e => (d0, Err e)
              | Ok (v, s1) =>
                  if sb then
                    match at_index (hd_tbl d0) ri with
                    | Err e => (d0, Err e)
                    | Ok h => (set_d_tbl d0 (update_nth (N.to_nat ri) (fun _ => (name, v)) (hd_tbl d0))
                                 (hd_size d0 + (zlen v - zlen (snd h))), Ok ((name, v), s1))
                    end
                  else if incr then (set_d_tbl d0 (hd_tbl d0 ++ [(name, v)]) (hd_size d0 + zlen v), Ok ((name, v), s1))
                  else (d0, Ok ((name, v), s1))
              end
          end = match decode_name cfg q d b0 (if incr || sb then 4 else 5) sb s with
                | (d0, Err e) => (d0, Err e) | (d0, Ok (x, s0)) => rest d0 x s0 end).
      { intros s. destruct (decode_name cfg q d b0 (if incr || sb then 4 else 5) sb s) as [d0 [[[[nm ri] pl] s0]|e]]; reflexivity. }
      rewrite !EQ. clear EQ.
      destruct (name_cut q d b0 _ sb a b Hp) as [(d1 & Hn)|(d1 & x & s & Hn & L & Hs)]; rewrite Hn.
      { left. do 2 eexists. split; [reflexivity|now left]. }
      destruct Hs as [(a' & Ea & ->)|Hs].
      + rewrite Ea. destruct (KR d1 x a' b) as [(d2 & E)|(d2 & h & s2 & E & L2 & Hc)]; rewrite E.
        { left. do 2 eexists. split; [reflexivity|now left]. }
        right. exists d2, h, s2. split; [reflexivity|]. split; [cbn [length]; lia|]. split; [exact Hx|]. exact Hc.
      + destruct (KR d1 x s []) as [(d2 & E)|(d2 & h & s2 & E & L2 & _)]; rewrite app_nil_r in *; rewrite E.
        { left. do 2 eexists. split; [reflexivity|now left]. }
        right. exists d2, h, s2. split; [reflexivity|]. split; [cbn [length]; lia|]. split; [exact Hx|]. right. left.
        destruct Hs as [(d3 & Ea)|(d3 & y & Ea)]; rewrite Ea; [eauto|apply Enil].
  Qed.

  (** The headers of the message. *)
  Lemma hlist_cut q n : forall d a b,
    match decode_list cfg q n d (a ++ b) with
    | (_, Err x) => x = IndexError \/ x = GenericException
    | (d1, Ok (hs, s)) => length hs = n /\
      ((exists a', decode_list cfg q n d a = (d1, Ok (hs, a')) /\ s = a' ++ b) \/
       (exists d2, decode_list cfg q n d a = (d2, Err IndexError)) \/
       (short /\ exists d2 hs0 nm v j, hs = hs0 ++ [(nm, v)] /\ (j < length v)%nat /\
          (j + length b = length v + length s)%nat /\
          decode_list cfg q n d a = (d2, Ok (hs0 ++ [(nm, firstn j v)], []))))
    end.
  Proof.
    induction n as [|n IH]; intros d a b; cbn [decode_list].
    { split; [reflexivity|]. left. eauto. }
    destruct (hone_cut q d a b) as [(d1 & x & E & Hx)|(d1 & h & s & E & L & Hsz & Hc)]; rewrite E; [tauto|].
    destruct Hc as [(a' & Ea & ->)|Hc].
    - rewrite Ea. specialize (IH d1 a' b).
      destruct (decode_list cfg q n d1 (a' ++ b)) as [d2 [[hs s2]|x]]; [|exact IH].
      destruct IH as [Hl IH]. split; [cbn [length]; lia|].
      destruct IH as [(a2 & E2 & ->)|[(d3 & E2)|(Hsh & d3 & hs0 & nm & v & j & -> & J1 & J2 & E2)]]; rewrite E2.
      + left. eauto.
      + right. left. eauto.
      + right. right. split; [exact Hsh|]. exists d3, (h :: hs0), nm, v, j. split; [reflexivity|]. auto.
    - specialize (IH d1 s []). rewrite app_nil_r in IH.
      destruct (decode_list cfg q n d1 s) as [d2 [[hs s2]|x]] eqn:E1; [|exact IH].
      destruct IH as [Hl _]. split; [cbn [length]; lia|].
      destruct Hc as [(d3 & Ea)|(Hsh & d3 & j & J1 & J2 & J3 & Ea)]; rewrite Ea; [right; left; eauto|].
      destruct n as [|n].
      + right. right. split; [exact Hsh|]. cbn [decode_list] in E1 |- *.
        assert (hs = [] /\ s2 = s) as [-> ->] by (split; congruence).
        exists d3, [], (fst h), (snd h), j. split; [now destruct h|]. auto.
      + right. left. cbn [decode_list].
        assert (Hs1 : (hd_size d1 <= h_max cfg)%Z).
        { cbn [decode_list] in E1. unfold decode_one in E1 at 1.
          destruct (Z.ltb_spec (h_max cfg) (hd_size d1)); [discriminate|lia]. }
        unfold decode_one. destruct (Z.ltb_spec (h_max cfg) (hd_size d3)); [lia|]. cbn [hd_byte]. eauto.
  Qed.
End One.

(** ** Huffman strings: a cut string has no end mark. *)
From Verif Require Import Bits HDHuff_Model HDHuff_Bits.

Lemma next_bit_cut a b d : next_bit a d = next_bit (a ++ b) d \/ next_bit a d = Err IndexError.
Proof.
  unfold next_bit. destruct (8 <=? bd_bit d)%nat; [|now left].
  destruct (nth_error a (bd_index d)) as [c|] eqn:E.
  - left. rewrite nth_error_app1 by (apply nth_error_Some; congruence). now rewrite E.
  - right. reflexivity.
Qed.

Lemma walk_cut a b t : forall d, walk a t d = walk (a ++ b) t d \/ walk a t d = Err IndexError.
Proof.
  induction t as [w s|w l IHl r IHr]; intros d; cbn [walk]; [now left|].
  destruct (next_bit_cut a b d) as [E|E]; rewrite E; [|now right].
  destruct (next_bit (a ++ b) d) as [[x d']|e]; cbn [bind]; [|now left].
  destruct (x =? 0); auto.
Qed.

Lemma huff_loop_more a b root x : forall f g d out, (f <= g)%nat ->
  huff_loop f a root d out = Ok x -> huff_loop g (a ++ b) root d out = Ok x.
Proof.
  induction f as [|f IH]; intros g d out Hg E; [discriminate|]. destruct g as [|g]; [lia|].
  cbn [huff_loop] in *. destruct (walk_cut a b root d) as [Ew|Ew]; rewrite Ew in E; [|discriminate].
  destruct (walk (a ++ b) root d) as [[s d']|e]; cbn [bind] in *; [|discriminate].
  destruct (hsym_eqb s (Num 256)); [exact E|]. apply IH; [lia|exact E].
Qed.

Lemma huff_cut cfg c : is_node (k_root c) -> h_read cfg = huff_decode c -> cut_reader cfg False.
Proof.
  intros Hn Hr.
  assert (HT : forall bs, (exists s n, huff_decode c bs = Ok (s, n) /\ n <= lenN bs) \/ huff_decode c bs = Err IndexError).
  { intros bs. unfold huff_decode. apply (huff_loop_total bs _ Hn _ _ _ [] (dec_rep_new bs)). rewrite bits_of_bytes_length. lia. }
  split.
  - intros a b. unfold str_cut, hd_literal. rewrite Hr.
    destruct (HT (a ++ b)) as [(v & n & E & Ln)|E]; rewrite E; cbn [bind]; [right|now left].
    do 2 eexists. split; [reflexivity|]. rewrite dropN_skipn. split; [rewrite skipn_length; lia|].
    destruct (HT a) as [(v' & n' & E' & Ln')|E']; rewrite E'; cbn [bind]; [left|right; now left].
    assert (E2 : huff_decode c (a ++ b) = Ok (v', n')).
    { unfold huff_decode in *. eapply huff_loop_more; [|exact E']. rewrite app_length. lia. }
    assert (v' = v /\ n' = n) as [-> ->] by (split; congruence).
    exists (dropN n a). split; [reflexivity|]. rewrite dropN_skipn, skipn_app.
    replace (N.to_nat n - length a)%nat with 0%nat; [reflexivity|]. unfold lenN in Ln'. lia.
  - unfold hd_literal. rewrite Hr. destruct (HT []) as [(v & n & E & _)|E]; [|now rewrite E].
    exfalso. unfold huff_decode in E. cbn [length Nat.mul huff_loop] in E.
    destruct (k_root c) as [w s|w l r]; [destruct Hn|]. cbn [walk] in E.
    rewrite next_bit_none in E by (apply dec_rep_new). discriminate.
Qed.

(** ** A message of a session, cut *)
From Coq Require Import Permutation.
From Verif Require Import HD_Sim HD_Step.

Lemma msg_cut ord cfg short q hs e d e' f a b :
  (forall t l, Permutation (ord t l) l) -> strings_ok cfg -> cut_reader cfg short ->
  hsim cfg e d -> hd_encode ord cfg q e hs = (e', Ok f) -> f = a ++ b -> b <> [] ->
  exists out, snd (hd_decode cfg q d f) = Ok out /\
    (snd (hd_decode cfg q d a) = Err IndexError \/
     short /\ exists out0 nm v, out = out0 ++ [(nm, v)] /\ (length b <= length v)%nat /\
       snd (hd_decode cfg q d a) = Ok (out0 ++ [(nm, firstn (length v - length b) v)])).
Proof.
  intros Ho Hstr HC Hs. unfold hd_encode, hd_payload.
  destruct (pack_B (lenN hs)) as [nb|] eqn:P; [|discriminate].
  set (e0 := set_e_tbl e (map grow_age (he_tbl e)) (he_size e)).
  destruct (encode_list ord cfg q e0 hs) as [e1 r1] eqn:E1.
  intros E Hf Hb. assert (e1 = e') by congruence. subst e1. apply (f_equal snd) in E. cbn [snd] in E.
  apply bind_ok in E. destruct E as (data & E & Fr).
  apply bind_ok in E. destruct E as (s & -> & E). assert (data = nb ++ s) as -> by congruence.
  assert (Hs0 : hsim cfg e0 d).
  { destruct Hs as [T S M R1 R2]. split; cbn; auto. apply tsim_map; auto. }
  destruct (encode_list_ok ord Ho cfg Hstr _ _ _ _ _ _ Hs0 E1) as (d' & hs' & D & _).
  specialize (D []). rewrite app_nil_r in D.
  pose proof (frame_payload _ _ Fr) as Fp.
  unfold pack_B in P. destruct (N.ltb_spec (lenN hs) 256); [|discriminate].
  assert (nb = [lenN hs]) as -> by congruence. cbn [app] in Fp.
  unfold hd_decode. rewrite Fp. unfold hd_decode_payload at 1. cbn [hd_byte].
  unfold lenN at 1. rewrite Nat2N.id, D. cbn [snd]. exists hs'. split; [reflexivity|].
  rewrite Hf in Fp. rewrite skipn_app in Fp.
  destruct (skipn 8 a) as [|x a1] eqn:Ea.
  { left. unfold hd_decode_payload. reflexivity. }
  assert (La : (8 - length a = 0)%nat).
  { assert (length (skipn 8 a) <> 0)%nat by (rewrite Ea; discriminate). rewrite skipn_length in H0. lia. }
  rewrite La in Fp. cbn [app] in Fp. change (skipn 0 b) with b in Fp.
  assert (x = lenN hs /\ a1 ++ b = s) as [-> <-] by (split; congruence).
  unfold hd_decode_payload. cbn [hd_byte]. unfold lenN. rewrite Nat2N.id.
  pose proof (hlist_cut cfg short HC q (length hs) d a1 b) as K. rewrite D in K. destruct K as [_ K].
  destruct K as [(a' & K & Hn)|[(d2 & K)|(Hsh & d2 & out0 & nm & v & j & -> & J1 & J2 & K)]]; rewrite K; cbn [snd].
  - destruct a'; [|discriminate]. destruct b; [congruence|discriminate].
  - now left.
  - right. split; [exact Hsh|]. exists out0, nm, v. cbn [length] in J2. split; [reflexivity|]. split; [lia|].
    replace (length v - length b)%nat with j by lia. reflexivity.
Qed.

(** ** A table over its limit *)
Lemma stuck cfg q d f : (h_max cfg < hd_size d)%Z ->
  exists r, hd_decode cfg q d f = (d, r) /\ (r = Err GenericException \/ r = Err IndexError \/ r = Ok []).
Proof.
  intros H. unfold hd_decode, hd_decode_payload. destruct (hd_byte (skipn 8 f)) as [[nb s]|e] eqn:E.
  - destruct (N.to_nat nb) as [|n]; cbn [decode_list]; [eauto|]. unfold decode_one.
    apply Z.ltb_lt in H. rewrite H. eauto.
  - assert (e = IndexError) as -> by (destruct (skipn 8 f); cbn in E; congruence). eauto.
Qed.

Lemma one_generic cfg q d s d1 : fst (decode_one cfg q d s) = d1 -> snd (decode_one cfg q d s) = Err GenericException ->
  (h_max cfg < hd_size d)%Z -> d1 = d.
Proof.
  intros H _ Hx. unfold decode_one in H. apply Z.ltb_lt in Hx. rewrite Hx in H. now cbn in H.
Qed.

Lemma list_outcome cfg short q n : cut_reader cfg short -> forall d s d1,
  match snd (decode_list cfg q n d s) with
  | Ok (hs, _) => length hs = n
  | Err x => x = IndexError \/ x = GenericException /\ (fst (decode_list cfg q n d s) = d1 -> (h_max cfg < hd_size d1)%Z)
  end.
Proof.
  intros HC. induction n as [|n IH]; intros d s d1; [reflexivity|]. cbn [decode_list].
  pose proof (hone_cut cfg short HC q d s []) as K. rewrite app_nil_r in K.
  destruct K as [(d2 & x & E & Hx)|(d2 & h & s2 & E & _)]; rewrite E; cbn [fst snd].
  - destruct Hx as [Hx|[Hx Hl]]; [now left|]. right. split; [exact Hx|]. intros <-.
    assert (d2 = d) as ->; [|exact Hl]. eapply one_generic; rewrite ?E; cbn [fst snd]; try reflexivity; congruence.
  - specialize (IH d2 s2 d1). destruct (decode_list cfg q n d2 s2) as [d3 [[hs s3]|x]]; cbn [fst snd] in *.
    + cbn [length]. lia.
    + exact IH.
Qed.
