(** * headerdiff: sessions that fit in the buffer, and what headers sent in
    the message before cost. *)
From Coq Require Import String List NArith ZArith Bool Lia ZifyN ZifyNat Permutation.
From Verif Require Import PyBase NBits HTTP2_Int PyStr HD_Model HD_Spec HD_Int HD_Sim HD_Step HD_Session HD_Total.
Import ListNotations.
Open Scope N_scope.
Open Scope py_scope.

Definition hd_of (x : ih) : hdr := (i_name x, i_value x).
Definition hds (e : henc) : list hdr := map hd_of (he_tbl e).
Definition vw (t : list ih) : list (nat * hdr) := map (fun x => (i_index x, hd_of x)) t.

Definition keeps (f : ih -> ih) : Prop :=
  forall h, i_name (f h) = i_name h /\ i_value (f h) = i_value h /\ i_index (f h) = i_index h.

Lemma keeps_reset : keeps reset_age. Proof. intros h. auto. Qed.
Lemma keeps_usage : keeps add_usage. Proof. intros h. auto. Qed.
Lemma keeps_grow : keeps grow_age. Proof. intros h. auto. Qed.

Lemma vw_map f t : keeps f -> vw (map f t) = vw t.
Proof.
  intros Hf. unfold vw. rewrite map_map. apply map_ext. intros x. destruct (Hf x) as (A & B & C). unfold hd_of. congruence.
Qed.

Lemma vw_touch f full t : keeps f -> vw (touch f full t) = vw t.
Proof.
  intros Hf. apply vw_map. intros h. destruct (str_eqb (i_full h) full); auto.
Qed.

Lemma vw_hds t t' : vw t = vw t' -> map hd_of t = map hd_of t'.
Proof. intros H. apply (f_equal (map snd)) in H. unfold vw in H. rewrite !map_map in H. exact H. Qed.

Lemma held_perm l l' : Permutation l l' -> held l = held l'.
Proof. induction 1; rewrite ?held_cons; try reflexivity; rewrite ?held_cons; lia. Qed.

Lemma held_incl l : forall l', NoDup l -> incl l l' -> (held l <= held l')%Z.
Proof.
  induction l as [|h l IH]; intros l' Hn Hi; [apply held_nonneg|].
  inversion Hn; subst. destruct (in_split h l' (Hi h (or_introl eq_refl))) as (a & b & ->).
  rewrite <- (held_perm (h :: a ++ b) (a ++ h :: b)) by apply Permutation_middle. rewrite !held_cons.
  enough (held l <= held (a ++ b))%Z by lia. apply IH; auto.
  intros x Hx. pose proof (Hi x (or_intror Hx)) as Hin. apply in_app_or in Hin as [Hin|[->|Hin]].
  - apply in_or_app; auto.
  - contradiction.
  - apply in_or_app; auto.
Qed.

Lemma NoDup_filter_map {A B} (g : A -> B) p l : NoDup (map g l) -> NoDup (map g (filter p l)).
Proof.
  induction l as [|x l IH]; simpl; auto. intros H; inversion H; subst.
  destruct (p x); simpl; auto. constructor; auto.
  intros Hin. apply H2. apply in_map_iff in Hin as (y & <- & Hy). apply filter_In in Hy. now apply in_map.
Qed.

Section Fits.
  Variable ord : nat -> list ih -> list ih.
  Hypothesis ord_perm : forall t l, Permutation (ord t l) l.
  Variable cfg : hcfg.
  Variable pool : list hdr.
  Hypothesis Hroom : (held pool < h_max cfg)%Z.
  Hypothesis Hdist : forall a b, In a pool -> In b pool -> same_text a b -> a = b.

  Record Fit (e : henc) : Prop := {
    f_nodup : NoDup (hds e);
    f_incl : incl (hds e) pool;
    f_size : he_size e = held (hds e);
    f_idx : forall x, In x (he_tbl e) -> (i_index x < length (he_tbl e))%nat }.

  Lemma fit_vw e e' : vw (he_tbl e') = vw (he_tbl e) -> he_size e' = he_size e -> Fit e -> Fit e'.
  Proof.
    intros Hv Hs [A B C D]. pose proof (vw_hds _ _ Hv) as Hh. fold (hds e') (hds e) in Hh.
    split; rewrite ?Hh, ?Hs; auto.
    intros x Hx.
    assert (Hl : length (he_tbl e') = length (he_tbl e)).
    { apply (f_equal (@length _)) in Hv. unfold vw in Hv. now rewrite !map_length in Hv. }
    assert (Hin : In (i_index x, hd_of x) (vw (he_tbl e))).
    { rewrite <- Hv. unfold vw. apply in_map_iff. exists x. auto. }
    unfold vw in Hin. apply in_map_iff in Hin as (y & Ey & Hy). rewrite Hl.
    apply (f_equal fst) in Ey. cbn in Ey. rewrite <- Ey. auto.
  Qed.

  Lemma in_hds x e : In x (he_tbl e) -> In (hd_of x) (hds e).
  Proof. intros H. unfold hds. now apply in_map. Qed.

  Lemma find_hds n v e x : Fit e -> In (n, v) pool -> find_full (n ++ v) (he_tbl e) = Some x ->
    In x (he_tbl e) /\ hd_of x = (n, v).
  Proof.
    intros HF Hp F. apply find_full_some in F as [Hx E]. split; [exact Hx|].
    apply Hdist; [apply (f_incl _ HF); now apply in_hds|exact Hp|]. exact E.
  Qed.

  Lemma find_absent n v e : find_full (n ++ v) (he_tbl e) = None -> ~ In (n, v) (hds e).
  Proof.
    intros F Hin. unfold hds in Hin. apply in_map_iff in Hin as (x & Ex & Hx).
    apply (find_full_none _ _ x F Hx). unfold i_full. unfold hd_of in Ex. congruence.
  Qed.

  Lemma fit_room n v e : Fit e -> In (n, v) pool -> ~ In (n, v) (hds e) -> (he_size e + zlen v < h_max cfg)%Z.
  Proof.
    intros HF Hp Hn. rewrite (f_size _ HF).
    assert (H : (held ((n, v) :: hds e) <= held pool)%Z).
    { apply held_incl.
      - constructor; [exact Hn|apply (f_nodup _ HF)].
      - intros y [<-|Hy]; [exact Hp|now apply (f_incl _ HF)]. }
    rewrite held_cons in H. cbn [snd] in H. lia.
  Qed.

  (** The choices left when there is room. *)
  Inductive fitting (q : bool) (n v : str) (e : henc) : hr -> Prop :=
  | fit_path : h_delta cfg = false -> n = lit ":path" -> fitting q n v e (mk_hr RepLiteral None NoIndexing 0)
  | fit_new : fitting q n v e (mk_hr RepLiteral None Incremental 0)
  | fit_delta ref k : h_delta cfg = true -> In ref (he_tbl e) -> i_name ref = n ->
      fitting q n v e (mk_hr RepDelta (Some ref) Incremental k)
  | fit_subst ref k : h_delta cfg = true -> In ref (he_tbl e) -> i_name ref = n ->
      q = true -> (h_max cfg < 10000)%Z -> fitting q n v e (mk_hr RepDelta (Some ref) Substitution k).

  Lemma determine_fit q n v e r e' : Fit e -> In (n, v) pool -> determine ord cfg n v q e = (r, e') ->
    he_size e' = he_size e /\ vw (he_tbl e') = vw (he_tbl e) /\
    ((exists x, In x (he_tbl e) /\ hd_of x = (n, v) /\ r = mk_hr RepIndexed (Some x) NoIndexing 0) \/
     (find_full (n ++ v) (he_tbl e) = None /\ he_tbl e' = he_tbl e /\ fitting q n v e r)).
  Proof.
    intros HF Hp. unfold determine. destruct (find_full (n ++ v) (he_tbl e)) as [h|] eqn:F.
    { intros [= <- <-]. cbn. split; [reflexivity|]. split; [apply vw_touch, keeps_reset|]. left.
      destruct (find_hds _ _ _ _ HF Hp F). exists h. auto. }
    pose proof (fit_room n v e HF Hp (find_absent _ _ _ F)) as Hr.
    destruct (h_delta cfg) eqn:Hdl; cbn [negb andb].
    2:{ destruct (str_eqb_spec n (lit ":path")) as [En|En].
        - intros [= <- <-]. split; [reflexivity|]. split; [reflexivity|]. right. split; [reflexivity|]. split; [reflexivity|].
          now constructor.
        - change (1 <? 0)%nat with false. cbv iota. apply Z.ltb_lt in Hr. rewrite Hr. intros [= <- <-].
          cbn. split; [reflexivity|]. split; [reflexivity|]. right. split; [reflexivity|]. split; [reflexivity|]. constructor. }
    destruct (fold_left (delta_step cfg n v) _ _) as [[k dref] added] eqn:D.
    assert (HD : delta_inv cfg n v (he_tbl e) (k, dref, added)).
    { rewrite <- D. apply (delta_fold cfg n v (he_tbl e)).
      - intros h Hh. eapply Permutation_in; [apply ord_perm|exact Hh].
      - now cbn. }
    destruct (Nat.ltb_spec 1 k) as [Hk|Hk].
    2:{ apply Z.ltb_lt in Hr. rewrite Hr. intros [= <- <-]. cbn. split; [reflexivity|]. split; [reflexivity|].
        right. split; [reflexivity|]. split; [reflexivity|]. constructor. }
    intros [= <- <-]. cbn. split; [reflexivity|]. split; [reflexivity|]. right. split; [reflexivity|]. split; [reflexivity|].
    destruct dref as [ref|]; cbn [delta_inv] in HD; [|lia].
    destruct HD as (H1 & H2 & H3 & H4).
    assert (Hlr : (he_size e + added <? h_max cfg)%Z = true).
    { apply Z.ltb_lt. unfold zlen in *. lia. }
    apply Z.ltb_lt in Hr. rewrite Hr, Hlr, andb_true_r.
    destruct (q && (h_max cfg <? 10000)%Z) eqn:Hq.
    - apply andb_prop in Hq as [Hq1 Hq2]. apply Z.ltb_lt in Hq2.
      destruct (15 <? added)%Z; [apply fit_delta; auto|apply fit_subst; auto].
    - apply fit_delta; auto.
  Qed.

  Definition index_octets (i : nat) (s : str) : Prop :=
    (if (i <? 64)%nat then pack_B (N.lor 128 (N.of_nat i)) else hd_write_int 192 14 (N.of_nat (i - 64))) = Ok s.

  (** What a header does to the table. *)
  Inductive effect (q : bool) (h : hdr) (e e' : henc) (s : str) : Prop :=
  | ef_index x : In x (he_tbl e) -> hd_of x = h -> vw (he_tbl e') = vw (he_tbl e) ->
      index_octets (i_index x) s -> effect q h e e' s
  | ef_path : h_delta cfg = false -> fst h = lit ":path" -> vw (he_tbl e') = vw (he_tbl e) -> effect q h e e' s
  | ef_new : ~ In h (hds e) -> hds e' = hds e ++ [h] -> effect q h e e' s
  | ef_subst ref : ~ In h (hds e) -> In ref (he_tbl e) -> i_name ref = fst h -> q = true -> (h_max cfg < 10000)%Z ->
      hds e' = map hd_of (filter (fun x => negb (str_eqb (i_full x) (i_full ref))) (he_tbl e)) ++ [h] -> effect q h e e' s.

  Lemma apply_fit q n v e r : Fit e -> In (n, v) pool -> find_full (n ++ v) (he_tbl e) = None ->
    fitting q n v e r ->
    Fit (e_apply (hr_idx r) (hr_ref r) n v e).
  Proof.
    intros HF Hp F C. pose proof (find_absent _ _ _ F) as Hn. destruct HF as [A B S D].
    destruct C as [Hdl En| |ref k Hdl Hr Hrn|ref k Hdl Hr Hrn Hq Hm]; cbn [hr_idx hr_ref e_apply].
    - now split.
    - split; cbn [he_tbl he_size set_e_tbl].
      + unfold hds in *. cbn. rewrite map_app. cbn. apply (Permutation_NoDup (Permutation_cons_append _ _)). now constructor.
      + unfold hds in *. cbn. rewrite map_app. intros y Hy. apply in_app_or in Hy as [Hy|[<-|[]]]; auto.
      + unfold hds in *. cbn. rewrite map_app, held_app. cbn [map]. rewrite held_cons. cbn [held fold_right snd hd_of new_ih i_value]. lia.
      + intros x Hx. rewrite app_length. cbn. apply in_app_or in Hx as [Hx|[<-|[]]].
        * specialize (D x Hx). lia.
        * cbn. lia.
    - split; cbn [he_tbl he_size set_e_tbl].
      + unfold hds in *. cbn. rewrite map_app. cbn. apply (Permutation_NoDup (Permutation_cons_append _ _)). now constructor.
      + unfold hds in *. cbn. rewrite map_app. intros y Hy. apply in_app_or in Hy as [Hy|[<-|[]]]; auto.
      + unfold hds in *. cbn. rewrite map_app, held_app. cbn [map]. rewrite held_cons. cbn [held fold_right snd hd_of new_ih i_value]. lia.
      + intros x Hx. rewrite app_length. cbn. apply in_app_or in Hx as [Hx|[<-|[]]].
        * specialize (D x Hx). lia.
        * cbn. lia.
    - assert (Hnf : NoDup (map i_full (he_tbl e))).
      { clear -A B Hdist. unfold hds in *. induction (he_tbl e) as [|x t IH]; [constructor|].
        cbn [map] in *. inversion A; subst. constructor.
        - intros Hin. apply in_map_iff in Hin as (y & Ey & Hy). apply H1. apply in_map_iff. exists y. split; [|exact Hy].
          apply Hdist; [apply B; right; now apply in_map|apply B; now left|exact Ey].
        - apply IH; [assumption|]. intros z Hz. apply B. now right. }
      destruct (filter_one ref (he_tbl e) Hnf Hr) as (a & b & Et & Ef).
      assert (Ht' : hds (set_e_tbl e (filter (fun x => negb (str_eqb (i_full x) (i_full ref))) (he_tbl e) ++ [new_ih n v (i_index ref)])
                  (he_size e - zlen (i_value ref) + zlen v)) =
                map hd_of a ++ map hd_of b ++ [(n, v)]).
      { unfold hds. cbn [set_e_tbl he_tbl]. rewrite Ef, !map_app. cbn. now rewrite app_assoc. }
      assert (He : hds e = map hd_of a ++ hd_of ref :: map hd_of b).
      { unfold hds. rewrite Et, map_app. reflexivity. }
      split; rewrite ?Ht'.
      + rewrite He in A, Hn. apply NoDup_remove in A as [A1 A2].
        rewrite app_assoc. apply (Permutation_NoDup (Permutation_cons_append _ _)). constructor; [|exact A1].
        intros Hin. apply Hn. apply in_app_or in Hin as [Hin|Hin]; apply in_or_app; [now left|right; now right].
      + rewrite He in B. intros y Hy. apply in_app_or in Hy as [Hy|Hy]; [apply B, in_or_app; auto|].
        apply in_app_or in Hy as [Hy|[<-|[]]]; [apply B, in_or_app; right; now right|exact Hp].
      + cbn [set_e_tbl he_size]. rewrite S, He, !held_app, !held_cons. cbn [held fold_right snd hd_of]. lia.
      + cbn [set_e_tbl he_tbl]. rewrite Ef. intros x Hx.
        assert (Hl : length (he_tbl e) = length ((a ++ b) ++ [new_ih n v (i_index ref)])).
        { rewrite Et, !app_length. cbn. lia. }
        rewrite <- Hl. apply in_app_or in Hx as [Hx|[<-|[]]].
        * apply D. rewrite Et. apply in_app_or in Hx as [Hx|Hx]; apply in_or_app; [now left|right; now right].
        * cbn. now apply D.
  Qed.

  Lemma encode_one_fit q e n v e' s : Fit e -> In (n, v) pool -> encode_one ord cfg q e (n, v) = (e', Ok s) ->
    Fit e' /\ effect q (n, v) e e' s.
  Proof.
    intros HF Hp. unfold encode_one.
    destruct (determine ord cfg n v q e) as [r e1] eqn:D.
    destruct (determine_fit _ _ _ _ _ _ HF Hp D) as (Hsz & Hv & [(x & Hx & Ex & ->)|(F & Et & C)]).
    - cbn [hr_rep ref_of hr_ref bind]. intros H. injection H as <- Hs.
      split; [eapply fit_vw; eauto|]. econstructor; eauto.
    - assert (HF1 : Fit e1) by (eapply fit_vw; eauto).
      assert (F1 : find_full (n ++ v) (he_tbl e1) = None) by now rewrite Et.
      assert (C1 : fitting q n v e1 r).
      { destruct C; constructor; auto; now rewrite Et. }
      assert (HS : hr_idx r = Substitution -> exists x, hr_ref r = Some x /\ In x (he_tbl e1)).
      { destruct C1; cbn; intros E; try discriminate; eauto. }
      pose proof (upd_eq (hr_idx r) (hr_ref r) n v e1 F1 HS) as HU.
      pose proof (apply_fit q n v e1 r HF1 Hp F1 C1) as HF2.
      pose proof (find_absent _ _ _ F) as Hn.
      assert (Hh1 : hds e1 = hds e) by (unfold hds; now rewrite Et).
      set (e2 := e_apply (hr_idx r) (hr_ref r) n v e1) in *.
      assert (Heff : forall e3, vw (he_tbl e3) = vw (he_tbl e2) -> he_size e3 = he_size e2 ->
                Fit e3 /\ effect q (n, v) e e3 s).
      { intros e3 Hv3 Hs3. split; [eapply fit_vw; eauto|].
        pose proof (vw_hds _ _ Hv3) as Hh3. fold (hds e3) (hds e2) in Hh3.
        destruct C as [Hdl En| |ref k Hdl Hr Hrn|ref k Hdl Hr Hrn Hq Hm]; cbn [hr_idx hr_ref e_apply] in e2.
        - apply ef_path; auto. rewrite Hv3. unfold e2. now rewrite Et.
        - apply ef_new; auto. rewrite Hh3. unfold e2, hds. cbn [set_e_tbl he_tbl]. now rewrite map_app, Et.
        - apply ef_new; auto. rewrite Hh3. unfold e2, hds. cbn [set_e_tbl he_tbl]. now rewrite map_app, Et.
        - apply (ef_subst _ _ _ _ _ ref); auto. rewrite Hh3. unfold e2, hds. cbn [set_e_tbl he_tbl].
          now rewrite map_app, Et. }
      assert (Hrep : hr_rep r <> RepIndexed) by (destruct C; discriminate).
      unfold ref_of. cbv zeta in HU |- *.
      destruct (hr_rep r) eqn:Er; [|contradiction|].
      + rewrite HU, andb_false_r.
        destruct (dget (e_names q e2) n) as [i|].
        * intros H. injection H as <- _. now apply Heff.
        * match goal with |- context [match ?m with Ok s => _ | Err x => _ end] => destruct m as [w|x] end.
          -- intros H. injection H as <- _. apply Heff; unfold set_e_names; now destruct q.
          -- intros H. apply (f_equal snd) in H. cbn in H. discriminate.
      + rewrite HU.
        destruct C as [| |ref k Hdl Hr Hrn|ref k Hdl Hr Hrn Hq Hm]; try discriminate;
          cbn [hr_rep hr_ref hr_idx hr_len] in *; rewrite Hdl; cbn [andb bind].
        * destruct (hd_write_int _ _ (N.of_nat (i_index ref))) as [s1|]; cbn [bind]; [|intros H; injection H as _ H; discriminate].
          destruct (hd_write_int _ 0 _) as [s2|]; cbn [bind]; [|intros H; injection H as _ H; discriminate].
          intros H. injection H as <- _. apply Heff; cbn [set_e_tbl he_tbl he_size]; [apply vw_touch, keeps_usage|reflexivity].
        * destruct (hd_write_int _ _ (N.of_nat (i_index ref))) as [s1|]; cbn [bind]; [|intros H; injection H as _ H; discriminate].
          destruct (hd_write_int _ 0 _) as [s2|]; cbn [bind]; [|intros H; injection H as _ H; discriminate].
          intros H. injection H as <- _. apply Heff; cbn [set_e_tbl he_tbl he_size]; [apply vw_touch, keeps_usage|reflexivity].
  Qed.

  (** Does a header stay in the table once it has been sent? *)
  Definition storable (h : hdr) : Prop := h_delta cfg = true \/ fst h <> lit ":path".
  Definition replacing (q : bool) : Prop := q = true /\ (h_max cfg < 10000)%Z.

  Lemma effect_has q h e e' s : effect q h e e' s -> storable h -> In h (hds e').
  Proof.
    intros [x Hx <- Hv _|Hdl En _|_ ->|ref _ _ _ _ _ ->] Hst.
    - unfold hds. rewrite (vw_hds _ _ Hv). now apply in_map.
    - destruct Hst; congruence.
    - apply in_or_app. right. now left.
    - apply in_or_app. right. now left.
  Qed.

  Lemma effect_keeps q h e e' s g : Fit e -> effect q h e e' s -> In g (hds e) ->
    (replacing q -> fst g <> fst h) -> In g (hds e').
  Proof.
    intros HF [x Hx <- Hv _|Hdl En Hv|_ ->|ref _ Hr Hrn Hq Hm ->] Hg Hne.
    - unfold hds. now rewrite (vw_hds _ _ Hv).
    - unfold hds. now rewrite (vw_hds _ _ Hv).
    - apply in_or_app. now left.
    - apply in_or_app. left. unfold hds in Hg. apply in_map_iff in Hg as (y & <- & Hy). apply in_map_iff.
      exists y. split; [reflexivity|]. apply filter_In. split; [exact Hy|]. apply negb_true_iff.
      destruct (str_eqb_spec (i_full y) (i_full ref)) as [E|E]; [|reflexivity]. exfalso.
      apply (Hne (conj Hq Hm)). rewrite <- Hrn. cbn [fst hd_of].
      assert (Ey : hd_of y = hd_of ref).
      { apply Hdist; [apply (f_incl _ HF); now apply in_hds|apply (f_incl _ HF); now apply in_hds|exact E]. }
      apply (f_equal fst) in Ey. exact Ey.
  Qed.

  Lemma encode_list_fit q hs : incl hs pool -> forall e e' s, Fit e -> encode_list ord cfg q e hs = (e', Ok s) -> Fit e'.
  Proof.
    induction hs as [|[n v] hs IH]; intros Hi e e' s HF; cbn [encode_list].
    - intros H. now injection H as <- _.
    - destruct (encode_one ord cfg q e (n, v)) as [e1 [s1|]] eqn:E1; [|intros H; apply (f_equal snd) in H; discriminate].
      destruct (encode_list ord cfg q e1 hs) as [e2 [s2|]] eqn:E2; cbn [bind]; intros H; [|apply (f_equal snd) in H; discriminate].
      injection H as <- _. destruct (encode_one_fit _ _ _ _ _ _ HF (Hi _ (or_introl eq_refl)) E1) as [HF1 _].
      apply (IH (fun x Hx => Hi x (or_intror Hx)) _ _ _ HF1 E2).
  Qed.

  Lemma encode_list_keeps q hs g : incl hs pool -> (replacing q -> ~ In (fst g) (map fst hs)) ->
    forall e e' s, Fit e -> encode_list ord cfg q e hs = (e', Ok s) -> In g (hds e) -> In g (hds e').
  Proof.
    induction hs as [|[n v] hs IH]; intros Hi Hne e e' s HF; cbn [encode_list].
    - intros H. now injection H as <- _.
    - destruct (encode_one ord cfg q e (n, v)) as [e1 [s1|]] eqn:E1; [|intros H; apply (f_equal snd) in H; discriminate].
      destruct (encode_list ord cfg q e1 hs) as [e2 [s2|]] eqn:E2; cbn [bind]; intros H; [|apply (f_equal snd) in H; discriminate].
      injection H as <- _. intros Hg.
      destruct (encode_one_fit _ _ _ _ _ _ HF (Hi _ (or_introl eq_refl)) E1) as [HF1 Ef].
      apply (IH (fun x Hx => Hi x (or_intror Hx))) with (2 := HF1) (3 := E2).
      + intros Hr Hin. apply (Hne Hr). cbn. auto.
      + apply (effect_keeps _ _ _ _ _ _ HF Ef Hg). intros Hr E. apply (Hne Hr). cbn. auto.
  Qed.

  (** After a message, all its headers are in the table. *)
  Lemma encode_list_has q hs : incl hs pool -> (replacing q -> NoDup (map fst hs)) ->
    forall e e' s, Fit e -> encode_list ord cfg q e hs = (e', Ok s) ->
    forall h, In h hs -> storable h -> In h (hds e').
  Proof.
    induction hs as [|[n v] hs IH]; intros Hi Hnd e e' s HF; cbn [encode_list].
    - intros _ h [].
    - destruct (encode_one ord cfg q e (n, v)) as [e1 [s1|]] eqn:E1; [|intros H; apply (f_equal snd) in H; discriminate].
      destruct (encode_list ord cfg q e1 hs) as [e2 [s2|]] eqn:E2; cbn [bind]; intros H; [|apply (f_equal snd) in H; discriminate].
      injection H as <- _.
      destruct (encode_one_fit _ _ _ _ _ _ HF (Hi _ (or_introl eq_refl)) E1) as [HF1 Ef].
      intros h [<-|Hh] Hst.
      + apply (encode_list_keeps q hs _ (fun x Hx => Hi x (or_intror Hx))) with (2 := HF1) (3 := E2).
        * intros Hr. specialize (Hnd Hr). cbn in Hnd. now inversion Hnd.
        * now apply (effect_has _ _ _ _ _ Ef).
      + apply (IH (fun x Hx => Hi x (or_intror Hx))) with (2 := HF1) (3 := E2); auto.
        intros Hr. specialize (Hnd Hr). cbn in Hnd. now inversion Hnd.
  Qed.

  (** Headers that are in the table. *)
  Lemma fit_length e : Fit e -> (length (he_tbl e) <= length pool)%nat.
  Proof.
    intros HF. rewrite <- (map_length hd_of). apply NoDup_incl_length; [apply (f_nodup _ HF)|apply (f_incl _ HF)].
  Qed.

  Lemma present_one q e n v : Fit e -> N.of_nat (length pool) <= 16447 -> In (n, v) (hds e) ->
    exists e' s, encode_one ord cfg q e (n, v) = (e', Ok s) /\ (1 <= length s <= 2)%nat /\
      ((length pool <= 64)%nat -> length s = 1%nat) /\ Fit e' /\ hds e' = hds e.
  Proof.
    intros HF Hl Hin. pose proof (f_incl _ HF _ Hin) as Hp. unfold encode_one, determine.
    destruct (find_full (n ++ v) (he_tbl e)) as [x|] eqn:F; [|now apply find_absent in F].
    destruct (find_hds _ _ _ _ HF Hp F) as [Hx Ex]. cbn [hr_rep ref_of hr_ref bind].
    pose proof (f_idx _ HF x Hx) as Hix. pose proof (fit_length e HF) as Hlen.
    set (e' := mk_henc _ _ _ _ _).
    assert (Hv : vw (he_tbl e') = vw (he_tbl e)) by (apply vw_touch, keeps_reset).
    assert (HF' : Fit e') by (eapply fit_vw; eauto).
    destruct (Nat.ltb_spec (i_index x) 64) as [Hlt|Hge].
    - rewrite lor128 by lia. rewrite pack_B_ok by lia. do 2 eexists. split; [reflexivity|].
      cbn. split; [lia|]. split; [auto|]. split; [exact HF'|]. unfold hds. now apply vw_hds.
    - destruct (hd_write_read_14 192 (N.of_nat (i_index x - 64))) as (b0 & b1 & W & _);
          [reflexivity|reflexivity|lia|]. rewrite W. do 2 eexists. split; [reflexivity|].
      cbn. split; [lia|]. split; [lia|]. split; [exact HF'|]. unfold hds. now apply vw_hds.
  Qed.

  Lemma present_list q hs : N.of_nat (length pool) <= 16447 -> forall e, Fit e -> incl hs (hds e) ->
    exists e' s, encode_list ord cfg q e hs = (e', Ok s) /\ (length hs <= length s <= 2 * length hs)%nat /\
      ((length pool <= 64)%nat -> length s = length hs) /\ Fit e' /\ hds e' = hds e.
  Proof.
    intros Hl. induction hs as [|[n v] hs IH]; intros e HF Hi; cbn [encode_list].
    - do 2 eexists. split; [reflexivity|]. cbn. split; [lia|]. auto.
    - destruct (present_one q e n v HF Hl (Hi _ (or_introl eq_refl))) as (e1 & s1 & E1 & L1 & M1 & HF1 & H1).
      destruct (IH e1 HF1) as (e2 & s2 & E2 & L2 & M2 & HF2 & H2).
      { rewrite H1. intros x Hx. apply Hi. now right. }
      rewrite E1, E2. cbn [bind]. do 2 eexists. split; [reflexivity|]. rewrite app_length. cbn [length].
      split; [lia|]. split; [intros Hp; rewrite (M1 Hp), (M2 Hp); reflexivity|]. split; [exact HF2|congruence].
  Qed.

  Lemma grow_fit e : Fit e -> Fit (set_e_tbl e (map grow_age (he_tbl e)) (he_size e)).
  Proof. intros HF. eapply fit_vw; [| |exact HF]; [cbn; apply vw_map, keeps_grow|reflexivity]. Qed.

  Lemma encode_fit q e hs e' f : Fit e -> incl hs pool -> hd_encode ord cfg q e hs = (e', Ok f) ->
    Fit e' /\ ((replacing q -> NoDup (map fst hs)) -> forall h, In h hs -> storable h -> In h (hds e')).
  Proof.
    intros HF Hi. unfold hd_encode, hd_payload.
    pose proof (grow_fit e HF) as HF0. set (e0 := set_e_tbl e _ _) in *.
    destruct (pack_B (lenN hs)) as [nb|]; [|intros H; apply (f_equal snd) in H; discriminate].
    destruct (encode_list ord cfg q e0 hs) as [e1 [s|]] eqn:E; cbn [bind]; [|intros H; apply (f_equal snd) in H; discriminate].
    intros H. apply (f_equal fst) in H. cbn in H. subst e'. split.
    - eapply encode_list_fit; eauto.
    - intros Hnd. eapply encode_list_has; eauto.
  Qed.

  Lemma encode_present q e hs : Fit e -> N.of_nat (length pool) <= 16447 -> (length hs <= 255)%nat -> incl hs (hds e) ->
    exists e' f, hd_encode ord cfg q e hs = (e', Ok f) /\ (9 + length hs <= length f <= 9 + 2 * length hs)%nat /\
      ((length pool <= 64)%nat -> length f = (9 + length hs)%nat) /\ Fit e' /\ hds e' = hds e.
  Proof.
    intros HF Hl Hn Hi. unfold hd_encode, hd_payload. rewrite pack_B_ok by (unfold lenN; lia).
    pose proof (grow_fit e HF) as HF0. set (e0 := set_e_tbl e _ _) in *.
    assert (H0 : hds e0 = hds e) by (unfold hds; apply vw_hds; cbn; apply vw_map, keeps_grow).
    destruct (present_list q hs Hl e0 HF0) as (e1 & s & E & L & M & HF1 & H1); [now rewrite H0|].
    rewrite E. cbn [bind]. unfold hd_frame, pack_H.
    assert (Hlt : (lenN ([lenN hs] ++ s) <? 65536) = true).
    { apply N.ltb_lt. unfold lenN. rewrite app_length. cbn [length]. lia. }
    rewrite Hlt. cbn [bind]. do 2 eexists. split; [reflexivity|].
    rewrite !app_length. cbn [length]. split; [lia|]. split; [intros Hp; rewrite (M Hp); lia|]. split; [exact HF1|congruence].
  Qed.

  Lemma enc_all_fit ms : Forall (fun m => incl (snd m) pool) ms -> forall e e' fs, Fit e ->
    enc_all ord cfg e ms = (e', Ok fs) -> Fit e'.
  Proof.
    induction ms as [|[q hs] ms IH]; intros Hi e e' fs HF; cbn [enc_all].
    - intros H. now injection H as <- _.
    - destruct (hd_encode ord cfg q e hs) as [e1 [f|]] eqn:E1; [|intros H; apply (f_equal snd) in H; discriminate].
      destruct (enc_all ord cfg e1 ms) as [e2 [fs'|]] eqn:E2; intros H; [|apply (f_equal snd) in H; discriminate].
      injection H as <- _. inversion Hi; subst. destruct (encode_fit _ _ _ _ _ HF H1 E1) as [HF1 _].
      apply (IH H2 _ _ _ HF1 E2).
  Qed.

  Lemma new_fit : Fit henc_new.
  Proof. split; cbn; [constructor|intros ? []|reflexivity|intros ? []]. Qed.
End Fits.

Lemma enc_all_snoc ord cfg ms q hs : forall e e' fs, enc_all ord cfg e (ms ++ [(q, hs)]) = (e', Ok fs) ->
  exists e1 fs1 f, enc_all ord cfg e ms = (e1, Ok fs1) /\ hd_encode ord cfg q e1 hs = (e', Ok f) /\ fs = fs1 ++ [f].
Proof.
  induction ms as [|[q0 hs0] ms IH]; intros e e' fs; cbn [enc_all app].
  - destruct (hd_encode ord cfg q e hs) as [e1 [f|]] eqn:E1; intros H; [|apply (f_equal snd) in H; discriminate].
    injection H as <- <-. exists e, [], f. auto.
  - destruct (hd_encode ord cfg q0 e hs0) as [e1 [f|]] eqn:E1; [|intros H; apply (f_equal snd) in H; discriminate].
    destruct (enc_all ord cfg e1 (ms ++ [(q, hs)])) as [e2 [fs'|]] eqn:E2; intros H; [|apply (f_equal snd) in H; discriminate].
    injection H as <- <-. destruct (IH _ _ _ E2) as (ea & fa & fb & A & B & ->).
    exists ea, (f :: fa), fb. rewrite A. auto.
Qed.
