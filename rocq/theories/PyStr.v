(** * Python string and dict operations: models and facts. *)
From Coq Require Import String List NArith ZArith Bool Lia Arith.
From Verif Require Import PyBase.
Import ListNotations.

(** ** str.split(c) for a one-character separator *)

Fixpoint split_on (c : N) (s : str) : list str :=
  match s with
  | [] => [[]]
  | x :: s' =>
      if N.eqb x c then [] :: split_on c s'
      else match split_on c s' with
           | [] => [[x]] (* impossible *)
           | p :: ps => (x :: p) :: ps
           end
  end.

(** s.split(c, 1): the part before the first [c] and, if there is one, the
    part after it. *)
Fixpoint split_once (c : N) (s : str) : str * option str :=
  match s with
  | [] => ([], None)
  | x :: s' => if N.eqb x c then ([], Some s')
               else let '(a, b) := split_once c s' in (x :: a, b)
  end.

(** sep.join(l) *)
Fixpoint join (sep : str) (l : list str) : str :=
  match l with
  | [] => []
  | [x] => x
  | x :: l' => x ++ sep ++ join sep l'
  end.

(** lstrip / rstrip / strip of the characters satisfying [p]. *)
Fixpoint lstrip (p : N -> bool) (s : str) : str :=
  match s with [] => [] | x :: s' => if p x then lstrip p s' else s end.
Definition rstrip (p : N -> bool) (s : str) : str := rev (lstrip p (rev s)).
Definition strip (p : N -> bool) (s : str) : str := rstrip p (lstrip p s).

(** strip(' ') and strip() (ASCII white space: \t \n \v \f \r and blank; for
    Python 3 texts also 0x1c-0x1f). *)
Definition is_blank (c : N) : bool := N.eqb c 32.
Definition is_space (c : N) : bool := N.eqb c 32 || (N.leb 9 c && N.leb c 13).

(** str.lower() on ASCII letters. *)
Definition lower_char (c : N) : N := if N.leb 65 c && N.leb c 90 then (c + 32)%N else c.
Definition lower (s : str) : str := map lower_char s.

Definition mem_str (x : str) (l : list str) : bool := existsb (str_eqb x) l.

Lemma mem_str_spec x l : reflect (In x l) (mem_str x l).
Proof.
  apply iff_reflect. unfold mem_str. rewrite existsb_exists. split.
  - intros H. exists x. split; [auto|apply str_eqb_refl].
  - intros (y & Hy & E). destruct (str_eqb_spec x y); congruence.
Qed.

(** ** Dictionaries: association lists in iteration order *)

Definition dict (V : Type) := list (str * V).

Fixpoint dget {V} (d : dict V) (k : str) : option V :=
  match d with
  | [] => None
  | (k', v) :: d' => if str_eqb k k' then Some v else dget d' k
  end.

(** d[k] = v: an existing key keeps its place. *)
Fixpoint dset {V} (d : dict V) (k : str) (v : V) : dict V :=
  match d with
  | [] => [(k, v)]
  | (k', v') :: d' => if str_eqb k k' then (k, v) :: d' else (k', v') :: dset d' k v
  end.

Fixpoint ddel {V} (d : dict V) (k : str) : dict V :=
  match d with
  | [] => []
  | (k', v') :: d' => if str_eqb k k' then d' else (k', v') :: ddel d' k
  end.

Definition din {V} (d : dict V) (k : str) : bool :=
  match dget d k with Some _ => true | None => false end.

Definition keys {V} (d : dict V) : list str := map fst d.

(** A dictionary has every key once. *)
Definition is_dict {V} (d : dict V) : Prop := NoDup (keys d).

(** ** Facts: split and join *)

Lemma split_on_nonempty c s : split_on c s <> [].
Proof. destruct s as [|x s]; cbn; [discriminate|]. destruct (N.eqb x c); [discriminate|]. destruct (split_on c s); discriminate. Qed.

Lemma split_on_nosep c s : Forall (fun p => ~ In c p) (split_on c s).
Proof.
  induction s as [|x s IH]; cbn; [constructor; auto|].
  destruct (N.eqb_spec x c) as [->|H].
  - constructor; auto.
  - destruct (split_on c s) as [|p ps]; inversion IH; subst; constructor; cbn; auto; intros [E|E]; auto.
Qed.

Lemma join_split c s : join [c] (split_on c s) = s.
Proof.
  induction s as [|x s IH]; cbn; [reflexivity|].
  pose proof (split_on_nonempty c s) as Hn.
  destruct (N.eqb_spec x c) as [->|H].
  - destruct (split_on c s) as [|p ps]; [congruence|].
    change (join [c] ([] :: p :: ps)) with (c :: join [c] (p :: ps)). now rewrite IH.
  - destruct (split_on c s) as [|p ps]; [congruence|]. destruct ps; cbn [join app] in *; now rewrite <- IH.
Qed.

Lemma split_on_free c s : ~ In c s -> split_on c s = [s].
Proof.
  induction s as [|x s IH]; cbn; intros H; [reflexivity|].
  destruct (N.eqb_spec x c) as [->|E]; [tauto|]. rewrite IH; tauto.
Qed.

Lemma split_on_app c a b : split_on c (a ++ c :: b) = split_on c a ++ split_on c b.
Proof.
  induction a as [|x a IH]; cbn.
  - now rewrite N.eqb_refl.
  - destruct (N.eqb_spec x c) as [->|E]; rewrite IH; [reflexivity|].
    pose proof (split_on_nonempty c a). destruct (split_on c a); [congruence|reflexivity].
Qed.

Lemma split_on_cons_free c a b : ~ In c a -> split_on c (a ++ c :: b) = a :: split_on c b.
Proof. intros H. now rewrite split_on_app, split_on_free. Qed.

Lemma split_on_join c l : l <> [] -> Forall (fun p => ~ In c p) l -> split_on c (join [c] l) = l.
Proof.
  induction l as [|p l IH]; intros Hn HF; [congruence|]. inversion HF; subst.
  destruct l as [|q l].
  - cbn. now apply split_on_free.
  - change (join [c] (p :: q :: l)) with (p ++ c :: join [c] (q :: l)).
    rewrite split_on_cons_free by auto. f_equal. apply IH; [discriminate|auto].
Qed.

(** Pieces of a join: those of its parts. *)
Lemma split_on_join_gen c l : l <> [] -> split_on c (join [c] l) = flat_map (split_on c) l.
Proof.
  induction l as [|p l IH]; intros Hn; [congruence|].
  destruct l as [|q l].
  - cbn. now rewrite app_nil_r.
  - change (join [c] (p :: q :: l)) with (p ++ c :: join [c] (q :: l)).
    rewrite split_on_app. cbn [flat_map]. f_equal. apply IH. discriminate.
Qed.

Lemma join_in sep l x : In x (join sep l) -> In x sep \/ exists p, In p l /\ In x p.
Proof.
  induction l as [|p l IH]; cbn [join]; [intros []|].
  destruct l as [|q l].
  - intros H. right. exists p. cbn; auto.
  - intros H. apply in_app_or in H as [H|H]; [right; exists p; cbn; auto|].
    apply in_app_or in H as [H|H]; [auto|]. destruct (IH H) as [H'|(r & Hr & Hx)]; [auto|].
    right. exists r. split; [now right|auto].
Qed.

Lemma split_on_in c s p x : In p (split_on c s) -> In x p -> In x s.
Proof.
  revert p. induction s as [|y s IH]; cbn; intros p.
  - intros [<-|[]] [].
  - destruct (N.eqb_spec y c) as [->|E].
    + intros [<-|H]; [intros []|]. eauto.
    + pose proof (split_on_nonempty c s). destruct (split_on c s) as [|q qs]; [congruence|].
      intros [<-|H'].
      * intros [->|Hx]; [auto|]. right. apply (IH q); [now left|auto].
      * intros Hx. right. apply (IH p); [now right|auto].
Qed.

Lemma split_once_spec c s : match split_once c s with
  | (a, None) => a = s /\ ~ In c s
  | (a, Some b) => s = a ++ c :: b /\ ~ In c a
  end.
Proof.
  induction s as [|x s IH]; cbn; [auto|]. destruct (N.eqb_spec x c) as [->|E]; [cbn; auto|].
  destruct (split_once c s) as [a [b|]]; destruct IH as [-> IH]; (split; [reflexivity|]); cbn; tauto.
Qed.

Lemma split_once_app c a b : ~ In c a -> split_once c (a ++ c :: b) = (a, Some b).
Proof.
  induction a as [|x a IH]; cbn; intros H.
  - now rewrite N.eqb_refl.
  - destruct (N.eqb_spec x c) as [->|E]; [tauto|]. rewrite IH by tauto. reflexivity.
Qed.

Lemma split_once_none c a : ~ In c a -> split_once c a = (a, None).
Proof.
  induction a as [|x a IH]; cbn; intros H; [reflexivity|].
  destruct (N.eqb_spec x c) as [->|E]; [tauto|]. rewrite IH by tauto. reflexivity.
Qed.

(** ** Facts: strip *)

Lemma lstrip_spec p s : exists pre, s = pre ++ lstrip p s /\ Forall (fun c => p c = true) pre.
Proof.
  induction s as [|x s (pre & E & H)]; cbn; [exists []; auto|].
  destruct (p x) eqn:Ex.
  - exists (x :: pre). cbn. rewrite <- E. auto.
  - exists []. auto.
Qed.

Lemma lstrip_head p s : match lstrip p s with [] => True | x :: _ => p x = false end.
Proof. induction s as [|x s IH]; cbn; [auto|]. destruct (p x) eqn:E; [exact IH|exact E]. Qed.

Lemma lstrip_id p s : match s with [] => True | x :: _ => p x = false end -> lstrip p s = s.
Proof. destruct s as [|x s]; cbn; [auto|]. intros ->. reflexivity. Qed.

Lemma lstrip_all p s : Forall (fun c => p c = true) s -> lstrip p s = [].
Proof. induction 1 as [|x s E _ IH]; cbn; [auto|]. now rewrite E. Qed.

Lemma lstrip_app p a b : Forall (fun c => p c = true) a -> lstrip p (a ++ b) = lstrip p b.
Proof. induction 1 as [|x s E _ IH]; cbn; [auto|]. now rewrite E. Qed.

(** First and last character are not in [p]. *)
Definition no_ends (p : N -> bool) (s : str) : Prop :=
  match s with [] => True | x :: _ => p x = false end /\
  match rev s with [] => True | x :: _ => p x = false end.

Lemma no_ends_nil p : no_ends p [].
Proof. split; exact I. Qed.

Lemma rstrip_id p s : match rev s with [] => True | x :: _ => p x = false end -> rstrip p s = s.
Proof. intros H. unfold rstrip. rewrite lstrip_id by exact H. apply rev_involutive. Qed.

Lemma strip_id p s : no_ends p s -> strip p s = s.
Proof. intros [H1 H2]. unfold strip. rewrite lstrip_id by auto. now apply rstrip_id. Qed.

Lemma rstrip_spec p s : exists post, s = rstrip p s ++ post /\ Forall (fun c => p c = true) post.
Proof.
  destruct (lstrip_spec p (rev s)) as (pre & E & H). exists (rev pre). unfold rstrip.
  rewrite <- rev_app_distr, <- E, rev_involutive. split; [auto|]. now apply Forall_rev.
Qed.

(** What strip returns: the middle of the text, with clean ends. *)
Lemma strip_spec p s : exists pre post, s = pre ++ strip p s ++ post /\
  Forall (fun c => p c = true) pre /\ Forall (fun c => p c = true) post /\ no_ends p (strip p s).
Proof.
  destruct (lstrip_spec p s) as (pre & E & H). destruct (rstrip_spec p (lstrip p s)) as (post & E' & H').
  exists pre, post. fold (strip p s) in E'. split; [now rewrite <- E'|]. split; [auto|]. split; [auto|].
  split.
  - destruct (strip p s) as [|x t] eqn:Es; [exact I|]. pose proof (lstrip_head p s) as Hh.
    rewrite E' in Hh. exact Hh.
  - unfold strip, rstrip. rewrite rev_involutive. apply lstrip_head.
Qed.

(** It is the only such middle. *)
Lemma strip_unique p pre m post : Forall (fun c => p c = true) pre -> Forall (fun c => p c = true) post ->
  no_ends p m -> strip p (pre ++ m ++ post) = m.
Proof.
  intros H1 H2 [Hm1 Hm2]. unfold strip. rewrite lstrip_app by auto.
  destruct m as [|x m].
  - cbn [app]. rewrite lstrip_all by auto. reflexivity.
  - rewrite lstrip_id by exact Hm1. unfold rstrip. rewrite rev_app_distr, lstrip_app by now apply Forall_rev.
    rewrite lstrip_id by exact Hm2. apply rev_involutive.
Qed.

Lemma strip_no_ends p s : no_ends p (strip p s).
Proof. destruct (strip_spec p s) as (? & ? & _ & _ & _ & H). exact H. Qed.

Lemma strip_idem p s : strip p (strip p s) = strip p s.
Proof. apply strip_id, strip_no_ends. Qed.

Lemma strip_in p s x : In x (strip p s) -> In x s.
Proof.
  destruct (strip_spec p s) as (pre & post & E & _). intros H. rewrite E.
  apply in_or_app. right. apply in_or_app. auto.
Qed.

(** ** Facts: dictionaries *)

Lemma dget_in {V} (d : dict V) k v : dget d k = Some v -> In (k, v) d.
Proof.
  induction d as [|[k' v'] d IH]; cbn; [discriminate|].
  destruct (str_eqb_spec k k') as [->|H]; [intros [= ->]; auto|auto].
Qed.

Lemma dget_none {V} (d : dict V) k : dget d k = None <-> ~ In k (keys d).
Proof.
  induction d as [|[k' v'] d IH]; cbn; [tauto|].
  destruct (str_eqb_spec k k') as [->|H]; [split; [discriminate|tauto]|].
  rewrite IH. split; [|tauto]. intros H1 [E|H2]; [congruence|tauto].
Qed.

Lemma in_dget {V} (d : dict V) k v : is_dict d -> In (k, v) d -> dget d k = Some v.
Proof.
  unfold is_dict. induction d as [|[k' v'] d IH]; cbn; [tauto|]. intros HN. inversion HN as [|? ? Hn HN']; subst.
  intros [E|H].
  - injection E as -> ->. now rewrite str_eqb_refl.
  - destruct (str_eqb_spec k k') as [->|Hk]; [|auto]. exfalso. apply Hn. apply (in_map fst) in H. exact H.
Qed.

Lemma dget_dset {V} (d : dict V) k v k' : dget (dset d k v) k' = if str_eqb k' k then Some v else dget d k'.
Proof.
  induction d as [|[k0 v0] d IH]; cbn.
  - reflexivity.
  - destruct (str_eqb_spec k k0) as [->|H]; cbn.
    + destruct (str_eqb_spec k' k0); reflexivity.
    + rewrite IH. destruct (str_eqb_spec k' k0) as [->|H']; [|reflexivity].
      destruct (str_eqb_spec k0 k); [congruence|reflexivity].
Qed.

Lemma keys_dset {V} (d : dict V) k v : keys (dset d k v) = if din d k then keys d else keys d ++ [k].
Proof.
  unfold din, keys. induction d as [|[k0 v0] d IH]; cbn [dset dget map fst]; [reflexivity|].
  destruct (str_eqb_spec k k0) as [->|H]; cbn [map fst]; [reflexivity|]. rewrite IH.
  destruct (dget d k); reflexivity.
Qed.

Lemma NoDup_snoc {A} (l : list A) x : NoDup l -> ~ In x l -> NoDup (l ++ [x]).
Proof.
  induction 1 as [|y l Hy HN IH]; intros Hx; cbn; constructor.
  - intros []. 
  - constructor.
  - intros Hin. apply in_app_or in Hin as [Hin|[->|[]]]; [auto|]. apply Hx. now left.
  - apply IH. intros Hin. apply Hx. now right.
Qed.

Lemma is_dict_dset {V} (d : dict V) k v : is_dict d -> is_dict (dset d k v).
Proof.
  unfold is_dict. rewrite keys_dset. unfold din. destruct (dget d k) eqn:E; [auto|].
  apply dget_none in E. intros H. now apply NoDup_snoc.
Qed.

Lemma dset_new {V} (d : dict V) k v : dget d k = None -> dset d k v = d ++ [(k, v)].
Proof.
  induction d as [|[k0 v0] d IH]; cbn; [auto|].
  destruct (str_eqb_spec k k0) as [->|H]; [discriminate|]. intros E. now rewrite IH.
Qed.

Lemma dget_ddel {V} (d : dict V) k k' : is_dict d -> dget (ddel d k) k' = if str_eqb k' k then None else dget d k'.
Proof.
  unfold is_dict. induction d as [|[k0 v0] d IH]; cbn; intros HN.
  - destruct (str_eqb k' k); reflexivity.
  - inversion HN as [|? ? Hn HN']; subst. destruct (str_eqb_spec k k0) as [->|H]; cbn.
    + destruct (str_eqb_spec k' k0) as [E|H']; [|reflexivity]. rewrite E. now apply dget_none.
    + rewrite (IH HN'). destruct (str_eqb_spec k' k0) as [E|H']; [|reflexivity].
      destruct (str_eqb_spec k' k); [congruence|reflexivity].
Qed.

Lemma keys_ddel_incl {V} (d : dict V) k x : In x (keys (ddel d k)) -> In x (keys d).
Proof.
  induction d as [|[k0 v0] d IH]; cbn; [auto|]. destruct (str_eqb k k0); cbn; [auto|]. intuition.
Qed.

Lemma is_dict_ddel {V} (d : dict V) k : is_dict d -> is_dict (ddel d k).
Proof.
  unfold is_dict. induction d as [|[k0 v0] d IH]; cbn; intros HN; [auto|]. inversion HN; subst.
  destruct (str_eqb k k0); [auto|]. cbn. constructor; [|auto]. intros Hin. apply keys_ddel_incl in Hin. auto.
Qed.

Lemma dict_ext_in {V} (d d' : dict V) : is_dict d -> is_dict d' ->
  (forall k, dget d k = dget d' k) -> forall k v, In (k, v) d <-> In (k, v) d'.
Proof.
  intros H H' E k v. split; intros Hin; apply dget_in; [rewrite <- E|rewrite E]; now apply in_dget.
Qed.
