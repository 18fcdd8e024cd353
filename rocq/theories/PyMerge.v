(** * Collecting (name, value) pairs into a dictionary, repeated names joined
    by a separator.

    Shared by http2's join_headers, headerdiff's decompress and parse_http1. *)
From Coq Require Import String List NArith ZArith Bool Lia.
From Verif Require Import PyBase PyStr.
Import ListNotations.
Open Scope N_scope.

Lemma join_snoc c l v : l <> [] -> join [c] (l ++ [v]) = join [c] l ++ [c] ++ v.
Proof.
  induction l as [|x l IH]; intros H; [congruence|]. destruct l as [|y l]; [reflexivity|].
  change (join [c] ((x :: y :: l) ++ [v])) with (x ++ [c] ++ join [c] ((y :: l) ++ [v])).
  rewrite IH by discriminate. change (join [c] (x :: y :: l)) with (x ++ [c] ++ join [c] (y :: l)).
  now rewrite <- !app_assoc.
Qed.

(** The loop body of http2/__init__.py lines 66-73, headerdiff/__init__.py
    lines 149-156, and compressor/__init__.py lines 96-99. *)
Definition merge_step (sep : str -> N) (d : dict str) (h : str * str) : dict str :=
  match dget d (fst h) with
  | Some old => dset d (fst h) (old ++ [sep (fst h)] ++ snd h)
  | None => dset d (fst h) (snd h)
  end.

(** The values of a name in a list of pairs. *)
Definition vals (k : str) (l : list (str * str)) : list str := map snd (filter (fun h => str_eqb (fst h) k) l).

Definition joinsep (c : N) (vs : list str) : option str :=
  match vs with [] => None | _ => Some (join [c] vs) end.

Lemma vals_app k a b : vals k (a ++ b) = vals k a ++ vals k b.
Proof. unfold vals. now rewrite filter_app, map_app. Qed.

Lemma vals_cons k h l : vals k (h :: l) = (if str_eqb (fst h) k then [snd h] else []) ++ vals k l.
Proof. unfold vals. cbn [filter]. now destruct (str_eqb (fst h) k). Qed.

Lemma vals_in k l v : In v (vals k l) <-> In (k, v) l.
Proof.
  unfold vals. rewrite in_map_iff. split.
  - intros ([a b] & <- & H). apply filter_In in H as [H E]. cbn in *. destruct (str_eqb_spec a k); [now subst|discriminate].
  - intros H. exists (k, v). split; [reflexivity|]. apply filter_In. split; [exact H|]. apply str_eqb_refl.
Qed.

Lemma vals_nil k l : ~ In k (map fst l) -> vals k l = [].
Proof.
  induction l as [|[a b] l IH]; intros H; [reflexivity|]. rewrite vals_cons. cbn [fst snd map In] in *.
  destruct (str_eqb_spec a k) as [E|_]; [tauto|]. apply IH. tauto.
Qed.

Lemma merge_gen sep l : forall pre d, is_dict d ->
  (forall k, dget d k = joinsep (sep k) (vals k pre)) ->
  let d' := fold_left (merge_step sep) l d in
  is_dict d' /\ forall k, dget d' k = joinsep (sep k) (vals k (pre ++ l)).
Proof.
  induction l as [|[n v] l IH]; intros pre d HD HI; cbn [fold_left]; cbn zeta.
  - rewrite app_nil_r. auto.
  - set (d1 := merge_step sep d (n, v)).
    assert (HD1 : is_dict d1) by (unfold d1, merge_step; cbn [fst snd]; destruct (dget d n); now apply is_dict_dset).
    assert (HI1 : forall k, dget d1 k = joinsep (sep k) (vals k (pre ++ [(n, v)]))).
    { intros k. rewrite vals_app, vals_cons. cbn [fst snd]. change (vals k []) with (@nil str). rewrite app_nil_r.
      assert (Ek : dget d1 k = if str_eqb k n then
                 Some (match dget d n with Some old => old ++ [sep n] ++ v | None => v end) else dget d k).
      { unfold d1, merge_step. cbn [fst snd]. destruct (dget d n); apply dget_dset. }
      rewrite Ek. destruct (str_eqb_spec k n) as [Hk|Hk].
      - rewrite Hk, str_eqb_refl. rewrite HI. unfold joinsep.
        destruct (vals n pre) as [|w ws] eqn:Ew; [reflexivity|].
        rewrite join_snoc by discriminate. reflexivity.
      - destruct (str_eqb_spec n k) as [E|_]; [congruence|]. rewrite app_nil_r. apply HI. }
    specialize (IH _ _ HD1 HI1). cbn zeta in IH. destruct IH as [A B]. split; [exact A|].
    intros k. rewrite B, <- app_assoc. reflexivity.
Qed.

Lemma merge_spec sep l : is_dict (fold_left (merge_step sep) l []) /\
  forall k, dget (fold_left (merge_step sep) l []) k = joinsep (sep k) (vals k l).
Proof. apply (merge_gen sep l [] []); [constructor|reflexivity]. Qed.
