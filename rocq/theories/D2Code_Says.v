(** * What the reconstructed headers of a delta2 message say. *)
From Coq Require Import String List NArith ZArith Bool Arith Lia Permutation.
From Verif Require Import PyBase PyStr Lib_Model Lib_Spec Lib_Proofs D2Store_Model D2Wire_Model D2Code_Model D2Code_Exec D2Code_Make D2Code_Round.
Import ListNotations.
Open Scope N_scope.

Lemma split_semi w : ~ In 59 w ->
  exists a r, split_on 0 w = a :: r /\ split_on 59 (nul_to_semi w) = a :: map (cons 32) r.
Proof.
  induction w as [|x w IH]; intros H; [exists [], []; split; reflexivity|]. destruct IH as (a & r & E1 & E2); [intros C; apply H; now right|].
  cbn [split_on nul_to_semi flat_map]. fold (nul_to_semi w). destruct (N.eqb_spec x 0) as [->|N0].
  - exists [], (a :: r). rewrite E1. split; [reflexivity|]. cbn [app split_on]. rewrite N.eqb_refl. change (32 =? 59) with false. cbv iota. now rewrite E2.
  - rewrite E1. exists (x :: a), r. split; [reflexivity|]. cbn [app split_on]. destruct (N.eqb_spec x 59) as [->|_]; [exfalso; apply H; now left|]. now rewrite E2.
Qed.

Lemma strip_cons32 s : strip is_blank (32 :: s) = strip is_blank s.
Proof. reflexivity. Qed.

Lemma split_semi_strip w : ~ In 59 w -> map (strip is_blank) (split_on 59 (nul_to_semi w)) = map (strip is_blank) (split_on 0 w).
Proof.
  intros H. destruct (split_semi w H) as (a & r & -> & ->). cbn [map]. f_equal. rewrite map_map. apply map_ext. intros s. apply strip_cons32.
Qed.

Lemma vals_of_in L k y : In y (vals_of L k) <-> In (k, y) L.
Proof.
  unfold vals_of. rewrite in_map_iff. split.
  - intros ([k' y'] & E & H). cbn [snd] in E. subst. apply filter_In in H as [H1 H2]. cbn [fst] in H2. destruct (str_eqb_spec k' k); [now subst|discriminate].
  - intros H. exists (k, y). split; [reflexivity|]. apply filter_In. split; [exact H|]. cbn. apply str_eqb_refl.
Qed.

Lemma carries_pairs d k y : carries d k y <-> In (k, y) (headers_set d).
Proof.
  destruct (headers_set_ok d) as [_ H]. rewrite H, all_pairs_in, carries_split. unfold pieces, split_value.
  split; intros (v & Hv & Hy); exists v; (split; [exact Hv|]); destruct (str_eqb k (lit "cookie")); exact Hy.
Qed.

Lemma pairs_sep d k y : In (k, y) (headers_set d) -> strip is_blank y = y /\ ~ In (sep_of k) y.
Proof.
  destruct (headers_set_ok d) as [_ H]. rewrite H, all_pairs_in. intros (v & _ & Hp). apply pieces_in in Hp. tauto.
Qed.

(** A header dictionary put together from the pairs [L]. *)
Lemma says_ok d L : Permutation L (headers_set d) -> let out := cookie_nul (fold_left app2 L []) in
  is_dict out /\
  (forall k y, k <> lit "cookie" -> (carries out k y <-> carries d k y)) /\
  (forall y, carries out (lit "cookie") y <-> exists p x, carries d (lit "cookie") p /\ piece_of 0 p x /\ trimmed x y).
Proof.
  intros P out. destruct (app2_get L [] (NoDup_nil _)) as [D G]. set (h := fold_left app2 L []) in *.
  assert (V : forall k y, In y (vals_of L k) <-> carries d k y).
  { intros k y. rewrite vals_of_in, carries_pairs. split; apply Permutation_in; [exact P|now symmetry]. }
  assert (N : forall k y, In y (vals_of L k) -> strip is_blank y = y /\ ~ In (sep_of k) y).
  { intros k y H. apply (pairs_sep d). apply carries_pairs. now apply V. }
  assert (Dout : is_dict out) by (unfold out, cookie_nul; destruct (dget h (lit "cookie")); [now apply is_dict_dset|exact D]).
  assert (Gout : forall k, dget out k = match vals_of L k with [] => None | vs => Some (if str_eqb k (lit "cookie") then nul_to_semi (join [0] vs) else join [0] vs) end).
  { intros k. pose proof (G k) as Gk. cbn [dget app] in Gk. unfold out, cookie_nul. destruct (str_eqb_spec k (lit "cookie")) as [->|Nk].
    - rewrite Gk. destruct (vals_of L (lit "cookie")); [exact Gk|]. now rewrite dget_dset, str_eqb_refl.
    - destruct (dget h (lit "cookie")); [rewrite dget_dset; destruct (str_eqb_spec k (lit "cookie")); [congruence|]|]; exact Gk. }
  assert (S : forall k y, carries out k y <-> exists vs, vals_of L k = vs /\ vs <> [] /\
      In y (split_value k (if str_eqb k (lit "cookie") then nul_to_semi (join [0] vs) else join [0] vs))).
  { intros k y. rewrite carries_split. split.
    - intros (v & Hin & Hy). apply (in_dget _ _ _ Dout) in Hin. rewrite Gout in Hin. destruct (vals_of L k) as [|a r]; [discriminate|].
      injection Hin as <-. exists (a :: r). split; [reflexivity|]. split; [discriminate|exact Hy].
    - intros (vs & E & Ne & Hy). eexists. split; [|exact Hy]. apply dget_in. rewrite Gout, E. destruct vs; [contradiction|reflexivity]. }
  split; [exact Dout|]. split.
  - intros k y Nk. rewrite S, <- V. assert (Ek : str_eqb k (lit "cookie") = false) by (destruct (str_eqb_spec k (lit "cookie")); congruence).
    unfold split_value. rewrite Ek. assert (F : vals_of L k <> [] -> map (strip is_blank) (split_on 0 (join [0] (vals_of L k))) = vals_of L k).
    { intros Ne. rewrite split_on_join; [|exact Ne|].
      - transitivity (map (fun s => s) (vals_of L k)); [|apply map_id]. apply map_ext_in. intros s Hs. now apply N in Hs.
      - apply Forall_forall. intros p Hp. apply N in Hp as [_ Hp]. unfold sep_of in Hp. now rewrite Ek in Hp. }
    split.
    + intros (vs & <- & Ne & Hy). now rewrite F in Hy.
    + intros Hy. exists (vals_of L k). split; [reflexivity|]. assert (Ne : vals_of L k <> []) by (intros C; rewrite C in Hy; contradiction). split; [exact Ne|]. now rewrite F.
  - intros y. rewrite S. unfold split_value. rewrite str_eqb_refl. set (vs := vals_of L (lit "cookie")) in *.
    assert (H59 : ~ In 59 (join [0] vs)).
    { intros C. apply join_in in C as [[C|[]]|(p & Hp & C)]; [discriminate|]. apply N in Hp as [_ Hp]. now apply Hp. }
    assert (F : vs <> [] -> map (strip is_blank) (split_on 59 (nul_to_semi (join [0] vs))) = map (strip is_blank) (flat_map (split_on 0) vs)).
    { intros Ne. now rewrite split_semi_strip, split_on_join_gen. }
    split.
    + intros (vs' & E & Ne & Hy). subst vs'. fold vs in Ne, Hy. rewrite F in Hy by exact Ne. apply in_map_iff in Hy as (x & <- & Hx). apply in_flat_map in Hx as (p & Hp & Hx).
      exists p, x. split; [now apply V|]. split; [now apply piece_of_split|now apply trimmed_strip].
    + intros (p & x & Hp & Hx & Ht). apply V in Hp. fold vs in Hp. exists vs. split; [reflexivity|]. assert (Ne : vs <> []) by (intros C; rewrite C in Hp; contradiction).
      split; [exact Ne|]. rewrite F by exact Ne. apply trimmed_strip in Ht. subst y. apply in_map. apply in_flat_map. exists p. split; [exact Hp|]. now apply piece_of_split.
Qed.
