(** * Splitting and joining of header values, and the harness' comparison. *)
From Coq Require Import String List NArith ZArith Bool Lia Permutation.
From Verif Require Import PyBase PyStr PyMerge Lib_Model Lib_Spec Lib_Proofs HTTP2_Model HTTP2_Proc_Model.
Import ListNotations.
Open Scope N_scope.
Open Scope py_scope.

Lemma join_headers_spec l : is_dict (join_headers l) /\ forall k, dget (join_headers l) k = joinsep (piece_sep k) (vals k l).
Proof. exact (merge_spec piece_sep l). Qed.

(** ** split_headers *)
Lemma mem_header_spec h l : mem_header h l = true <-> In h l.
Proof.
  unfold mem_header. rewrite existsb_exists. split.
  - intros (x & Hx & E). unfold header_eqb in E. apply andb_true_iff in E as [E1 E2].
    destruct (str_eqb_spec (fst h) (fst x)), (str_eqb_spec (snd h) (snd x)); try discriminate.
    destruct h, x; cbn in *; now subst.
  - intros H. exists h. split; [exact H|]. unfold header_eqb. now rewrite !str_eqb_refl.
Qed.

Lemma extend_new_spec hs : forall l, NoDup l -> NoDup (extend_new l hs) /\ forall h, In h (extend_new l hs) <-> In h l \/ In h hs.
Proof.
  induction hs as [|h hs IH]; intros l HN; cbn [extend_new].
  - split; [exact HN|]. intros x. cbn. tauto.
  - destruct (mem_header h l) eqn:E.
    + apply mem_header_spec in E. destruct (IH l HN) as [A B]. split; [exact A|]. intros x. rewrite B. cbn.
      split; [tauto|]. intros [H|[->|H]]; auto.
    + assert (Hn : ~ In h l) by (intros H; apply mem_header_spec in H; congruence).
      destruct (IH (l ++ [h])) as [A B]; [now apply NoDup_snoc|]. split; [exact A|]. intros x. rewrite B, in_app_iff. cbn. tauto.
Qed.

Lemma split_headers_gen d : forall l, NoDup l ->
  let l' := fold_left split_step d l in
  NoDup l' /\ forall k y, In (k, y) l' <-> In (k, y) l \/
     exists v x, In (k, v) d /\ In x (split_on (piece_sep k) v) /\ y = strip is_space x.
Proof.
  induction d as [|[n v] d IH]; intros l HN; cbn [fold_left]; cbn zeta.
  - split; [exact HN|]. intros k y. split; [tauto|]. intros [H|(v & x & [] & _)]. exact H.
  - destruct (extend_new_spec (map (fun vs => (n, strip is_space vs)) (split_on (piece_sep n) v)) l HN) as [A B].
    destruct (IH _ A) as [C D]. split; [exact C|]. intros k y. unfold split_step at 2. cbn [fst snd]. rewrite D, B, in_map_iff. split.
    + intros [[H|(x & [= <- <-] & Hx)]|(v' & x & H)].
      * auto.
      * right. exists v, x. cbn. auto.
      * right. exists v', x. cbn. tauto.
    + intros [H|(v' & x & [[= <- <-]|H] & Hx & ->)]; [auto| |].
      * left. right. exists x. auto.
      * right. exists v', x. auto.
Qed.

Lemma split_headers_spec d : NoDup (split_headers d) /\ forall k y, In (k, y) (split_headers d) <->
  exists v x, In (k, v) d /\ In x (split_on (piece_sep k) v) /\ y = strip is_space x.
Proof.
  destruct (split_headers_gen d [] (NoDup_nil _)) as [A B]. split; [exact A|]. intros k y. unfold split_headers.
  rewrite B. cbn. split; [intros [[]|H]; exact H|auto].
Qed.

(** ** A joined list carries what the split dictionary carried *)

(** After trimming blanks, no piece begins or ends with other white space. *)
Definition blank_only (d : hdict) : Prop :=
  forall k v x y, In (k, v) d -> piece_of (if str_eqb k (lit "cookie") then 59 else 0) v x -> trimmed x y ->
    y = [] \/ ~ white (hd 0 y) /\ ~ white (last y 0).

Lemma strip_same d k v x : blank_only d -> In (k, v) d -> In x (split_on (piece_sep k) v) -> strip is_space x = strip is_blank x.
Proof.
  intros HB Hin Hx. apply piece_of_split in Hx. unfold piece_sep in Hx.
  specialize (HB k v x (strip is_blank x) Hin Hx (proj2 (trimmed_strip _ _) eq_refl)).
  apply no_ends_space in HB. destruct (strip_spec is_blank x) as (pre & post & E & H1 & H2 & _).
  rewrite E at 1. apply strip_unique; auto; eapply Forall_impl; try eassumption; intros c Hc; unfold is_blank in Hc; unfold is_space; now rewrite Hc.
Qed.

Lemma split_value_eq k v : split_value k v = map (strip is_blank) (split_on (piece_sep k) v).
Proof. unfold split_value, piece_sep. now destruct (str_eqb k (lit "cookie")). Qed.

(** For any list with the same headers as the split dictionary. *)
Lemma join_split_same d out : blank_only d -> (forall h, In h out <-> In h (split_headers d)) ->
  same_content d (join_headers out).
Proof.
  intros HB HO k y _. rewrite !carries_split.
  destruct (join_headers_spec out) as [HD HJ]. destruct (split_headers_spec d) as [_ HS].
  assert (HF : Forall (fun p => ~ In (piece_sep k) p) (vals k out)).
  { apply Forall_forall. intros w Hw Hc. apply vals_in, HO, HS in Hw as (v & x & _ & Hx & ->).
    apply strip_in in Hc. pose proof (split_on_nosep (piece_sep k) v) as HN. rewrite Forall_forall in HN. exact (HN x Hx Hc). }
  assert (HV : forall v', In (k, v') (join_headers out) -> split_on (piece_sep k) v' = vals k out).
  { intros v' Hv'. apply in_dget in Hv'; [|exact HD]. rewrite HJ in Hv'. unfold joinsep in Hv'.
    destruct (vals k out) as [|w ws] eqn:E; [discriminate|].
    assert (Ev : v' = join [piece_sep k] (w :: ws)) by congruence. rewrite Ev. apply split_on_join; [discriminate|exact HF]. }
  split.
  - intros (v & Hin & Hy). rewrite split_value_eq in Hy. apply in_map_iff in Hy as (x & <- & Hx).
    assert (Hk : In (strip is_space x) (vals k out)).
    { apply vals_in, HO, HS. exists v, x. auto. }
    rewrite (strip_same d k v x HB Hin Hx) in Hk.
    destruct (dget (join_headers out) k) as [v'|] eqn:E.
    + exists v'. split; [now apply dget_in|]. rewrite split_value_eq, (HV v') by now apply dget_in.
      apply in_map_iff. exists (strip is_blank x). split; [apply strip_idem|exact Hk].
    + rewrite HJ in E. unfold joinsep in E. destruct (vals k out); [destruct Hk|discriminate].
  - intros (v' & Hin & Hy). rewrite split_value_eq, (HV v' Hin) in Hy. apply in_map_iff in Hy as (w & <- & Hw).
    apply vals_in, HO, HS in Hw as (v & x & Hv & Hx & ->). exists v. split; [exact Hv|].
    rewrite split_value_eq, (strip_same d k v x HB Hv Hx), strip_idem. now apply in_map.
Qed.

(** A boolean test for [blank_only]. *)
Definition blank_onlyb (d : hdict) : bool :=
  forallb (fun '(k, v) => forallb (fun x => str_eqb (strip is_space (strip is_blank x)) (strip is_blank x))
                            (split_on (piece_sep k) v)) d.

Lemma blank_onlyb_ok d : blank_onlyb d = true -> blank_only d.
Proof.
  intros H k v x y Hin Hx Hy. apply trimmed_strip in Hy. apply piece_of_split in Hx. fold (piece_sep k) in Hx.
  unfold blank_onlyb in H. rewrite forallb_forall in H. specialize (H _ Hin). cbv beta iota in H.
  rewrite forallb_forall in H. specialize (H x Hx). rewrite <- Hy in H.
  destruct (str_eqb_spec (strip is_space y) y) as [E|]; [|discriminate].
  destruct y as [|a z] eqn:Ey; [now left|right]. rewrite <- Ey in *. pose proof (strip_no_ends is_space y) as HN. rewrite E in HN.
  destruct HN as [H1 H2]. rewrite last_rev. split.
  - rewrite Ey in *. cbn. intros Hw. apply is_space_white in Hw. congruence.
  - assert (Hr : rev y <> []) by (rewrite Ey; cbn; intros Hr; apply app_eq_nil in Hr as [_ Hr]; discriminate).
    destruct (rev y) as [|b r]; [congruence|]. cbn. intros Hw. apply is_space_white in Hw. congruence.
Qed.
