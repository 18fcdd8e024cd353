(** * Property C92: what the parameters of a codec mean. *)
From Coq Require Import String List NArith ZArith Bool Arith Lia.
From Verif Require Import PyBase HD_Model D2Store_Model D2Code_Model PyStr Params_Model Prop_Options.
Import ListNotations.
Open Scope N_scope.
Open Scope py_scope.

(** ** Integers *)

(** Decimal digits and their value. *)
Inductive numeral : str -> N -> Prop :=
| one_digit d : d < 10 -> numeral [48 + d] d
| one_more s n d : d < 10 -> numeral s n -> numeral (s ++ [48 + d]) (10 * n + d).

(** The texts of an integer: white space may be around it, and after the sign. *)
Inductive integer : str -> Z -> Prop :=
| unsigned a s b n : Forall white a -> Forall white b -> numeral s n -> integer (a ++ s ++ b) (Z.of_N n)
| positive a a' s b n : Forall white a -> Forall white a' -> Forall white b -> numeral s n ->
    integer (a ++ [43] ++ a' ++ s ++ b) (Z.of_N n)
| negative a a' s b n : Forall white a -> Forall white a' -> Forall white b -> numeral s n ->
    integer (a ++ [45] ++ a' ++ s ++ b) (- Z.of_N n).

Lemma digits_value_snoc s : forall acc c, digits_value acc (s ++ [c]) =
  match digits_value acc s with Some m => if (48 <=? c) && (c <=? 57) then Some (10 * m + (c - 48)) else None | None => None end.
Proof.
  induction s as [|x s IH]; intros acc c; [reflexivity|].
  cbn [app digits_value]. destruct ((48 <=? x) && (x <=? 57)); [apply IH|reflexivity].
Qed.

Lemma numeral_spec s : forall n, numeral s n <-> s <> [] /\ digits_value 0 s = Some n.
Proof.
  intros n. split.
  - induction 1 as [d Hd|s n d Hd _ [Hs IH]].
    + split; [discriminate|]. cbn [digits_value]. destruct (N.leb_spec 48 (48 + d)); [|lia].
      destruct (N.leb_spec (48 + d) 57); [|lia]. cbn [andb]. f_equal. lia.
    + split; [destruct s; discriminate|]. rewrite digits_value_snoc, IH.
      destruct (N.leb_spec 48 (48 + d)); [|lia]. destruct (N.leb_spec (48 + d) 57); [|lia]. cbn [andb]. f_equal. lia.
  - revert n. induction s as [|c s IH] using rev_ind; intros n [Hs H]; [now contradiction Hs|].
    rewrite digits_value_snoc in H.
    destruct (digits_value 0 s) as [m|] eqn:E; [|discriminate].
    destruct (N.leb_spec 48 c) as [H1|]; [|discriminate]. destruct (N.leb_spec c 57) as [H2|]; [|discriminate].
    cbn [andb] in H. injection H as <-.
    assert (Hc : c = 48 + (c - 48)) by lia.
    destruct s as [|x s].
    + cbn in E. injection E as <-. cbn [app]. rewrite Hc at 1. replace (10 * 0 + (c - 48)) with (c - 48) by lia.
      apply one_digit. lia.
    + rewrite Hc at 1. apply one_more; [lia|]. apply IH. split; [discriminate|reflexivity].
Qed.

Lemma numeral_digits s n : numeral s n -> Forall (fun c => is_space c = false /\ c <> 43 /\ c <> 45) s.
Proof.
  assert (D : forall d, d < 10 -> is_space (48 + d) = false /\ 48 + d <> 43 /\ 48 + d <> 45).
  { intros d Hd. unfold is_space. destruct (N.eqb_spec (48 + d) 32); [lia|].
    destruct (N.leb_spec (48 + d) 13); [lia|]. rewrite andb_false_r. split; [reflexivity|lia]. }
  induction 1 as [d Hd|s n d Hd _ IH]; [constructor; [now apply D|constructor]|].
  apply Forall_app. split; [exact IH|]. constructor; [now apply D|constructor].
Qed.

Lemma digits_no_ends p s : s <> [] -> Forall (fun c => is_space c = false) s ->
  match p with [] => True | x :: _ => is_space x = false end -> no_ends is_space (p ++ s).
Proof.
  intros Hs F Hp. split.
  - destruct p as [|x p]; [|exact Hp]. destruct s as [|x s]; [contradiction|]. now inversion F.
  - rewrite rev_app_distr. destruct (rev s) as [|x r] eqn:E.
    + apply (f_equal (@rev N)) in E. rewrite rev_involutive in E. contradiction.
    + apply Forall_rev in F. rewrite E in F. now inversion F.
Qed.

Definition read_signed (s : str) : res Z :=
  let '(neg, r) := match s with
                   | [] => (false, s)
                   | c :: r => if c =? 45 then (true, lstrip is_space r)
                               else if c =? 43 then (false, lstrip is_space r) else (false, s)
                   end in
  match r with
  | [] => Err ValueError
  | _ => match digits_value 0 r with
         | Some n => Ok (if neg then - Z.of_N n else Z.of_N n)%Z
         | None => Err ValueError
         end
  end.

Lemma numeral_read (neg : bool) s n : numeral s n ->
  match s with
  | [] => Err ValueError
  | _ => match digits_value 0 s with
         | Some n => Ok (if neg then - Z.of_N n else Z.of_N n)%Z
         | None => Err ValueError
         end
  end = Ok (if neg then - Z.of_N n else Z.of_N n)%Z.
Proof. intros H. apply numeral_spec in H. destruct H as [Hs E]. destruct s; [contradiction|]. now rewrite E. Qed.

Theorem C92_integers : forall s z, py_int s = Ok z <-> integer s z.
Proof.
  intros s z. change (py_int s) with (read_signed (strip is_space s)). split.
  - destruct (strip_spec is_space s) as (a & b & E & A & B & _). apply white_all in A, B.
    rewrite E at 2. generalize dependent (strip is_space s). intros t E. unfold read_signed.
    assert (R : forall (neg : bool) r, match r with [] => Err ValueError | _ => match digits_value 0 r with
                   | Some n => Ok (if neg then - Z.of_N n else Z.of_N n)%Z | None => Err ValueError end end = Ok z ->
                 exists n, numeral r n /\ z = (if neg then - Z.of_N n else Z.of_N n)%Z).
    { intros neg r H. destruct r as [|x r]; [discriminate|]. destruct (digits_value 0 (x :: r)) as [n|] eqn:F; [|discriminate].
      injection H as <-. exists n. split; [apply numeral_spec; split; [discriminate|exact F]|reflexivity]. }
    destruct t as [|c r]; [discriminate|].
    destruct (lstrip_spec is_space r) as (a' & E' & A'). apply white_all in A'.
    destruct (N.eqb_spec c 45) as [->|N45].
    + intros H. apply (R true) in H. destruct H as (n & H & ->). rewrite E'.
      rewrite <- app_comm_cons, <- app_assoc. apply (negative a a' _ b); assumption.
    + destruct (N.eqb_spec c 43) as [->|N43].
      * intros H. apply (R false) in H. destruct H as (n & H & ->). rewrite E'.
        rewrite <- app_comm_cons, <- app_assoc. apply (positive a a' _ b); assumption.
      * intros H. apply (R false (c :: r)) in H. destruct H as (n & H & ->). now apply unsigned.
  - intros I. destruct I as [a s b n A B H|a a' s b n A A' B H|a a' s b n A A' B H];
      pose proof (numeral_digits s n H) as D; apply white_all in A, B;
      assert (D' : Forall (fun c => is_space c = false) s) by (eapply Forall_impl; [|exact D]; intros ? [? _]; assumption);
      assert (Hs : s <> []) by (apply numeral_spec in H; exact (proj1 H)).
    + rewrite strip_unique; [|exact A|exact B|apply (digits_no_ends []); auto].
      unfold read_signed. destruct s as [|c r]; [contradiction|]. inversion D as [|? ? (_ & H43 & H45) _]; subst.
      destruct (N.eqb_spec c 45); [contradiction|]. destruct (N.eqb_spec c 43); [contradiction|].
      exact (numeral_read false _ _ H).
    + apply white_all in A'.
      replace (a ++ [43] ++ a' ++ s ++ b) with (a ++ (([43] ++ a') ++ s) ++ b) by (now rewrite <- !app_assoc).
      rewrite strip_unique; [|exact A|exact B|apply digits_no_ends; [exact Hs|exact D'|reflexivity]].
      cbn [app read_signed]. unfold read_signed. cbn [N.eqb Pos.eqb]. rewrite lstrip_app by exact A'.
      rewrite lstrip_id by (destruct s; [exact I|now inversion D']).
      exact (numeral_read false _ _ H).
    + apply white_all in A'.
      replace (a ++ [45] ++ a' ++ s ++ b) with (a ++ (([45] ++ a') ++ s) ++ b) by (now rewrite <- !app_assoc).
      rewrite strip_unique; [|exact A|exact B|apply digits_no_ends; [exact Hs|exact D'|reflexivity]].
      cbn [app]. unfold read_signed. cbn [N.eqb Pos.eqb]. rewrite lstrip_app by exact A'.
      rewrite lstrip_id by (destruct s; [exact I|now inversion D']).
      exact (numeral_read true _ _ H).
Qed.
Print Assumptions C92_integers.

Lemma py_int_err s e : py_int s = Err e -> e = ValueError.
Proof.
  unfold py_int. destruct (strip is_space s) as [|c r]; [congruence|].
  destruct (if c =? 45 then _ else _) as [neg t]. destruct t as [|x t]; [congruence|].
  destruct (digits_value 0 (x :: t)); congruence.
Qed.

Theorem C92_no_integer : forall s e, py_int s = Err e <-> e = ValueError /\ ~ exists z, integer s z.
Proof.
  intros s e. split.
  - intros H. split; [now apply py_int_err in H|]. intros [z Hz]. apply C92_integers in Hz. congruence.
  - intros [-> H]. destruct (py_int s) as [z|e] eqn:E.
    + exfalso. apply H. exists z. now apply C92_integers.
    + f_equal. now apply py_int_err in E.
Qed.
Print Assumptions C92_no_integer.

(** ** Parameters by name *)

(** [p] is the bare name [n], or [n], an equals sign and a value. *)
Definition named (p n : str) (v : option str) : Prop :=
  match v with None => p = n /\ ~ In 61 n | Some w => p = n ++ [61] ++ w /\ ~ In 61 n end.
Definition absent (ps : list str) (n : str) : Prop := forall p v, In p ps -> ~ named p n v.
(** The last parameter of that name counts. *)
Definition given (ps : list str) (n : str) (v : option str) : Prop :=
  exists a p b, ps = a ++ p :: b /\ named p n v /\ absent b n.

(** The value of an attribute: its default, or what the last parameter of that name says. *)
Definition field {A} (ps : list str) (n : str) (default : A) (says : option str -> A -> Prop) (x : A) : Prop :=
  (absent ps n /\ x = default) \/ exists v, given ps n v /\ says v x.

Definition says_integer (v : option str) (z : Z) : Prop := exists s, v = Some s /\ integer s z.

Lemma named_spec p n v : named p n v <-> split_once 61 p = (n, v).
Proof.
  pose proof (split_once_spec 61 p) as S. split.
  - destruct v as [w|]; cbn [named]; intros [-> H]; [now apply split_once_app|now apply split_once_none].
  - intros E. rewrite E in S. destruct v as [w|]; destruct S as [S H]; [now split|]. subst n. now split.
Qed.

Lemma absent_nil n : absent [] n.
Proof. intros p v []. Qed.
Lemma absent_cons p ps n : absent (p :: ps) n <-> fst (split_once 61 p) <> n /\ absent ps n.
Proof.
  split.
  - intros H. split; [|intros q v I; apply H; now right]. intros E. destruct (split_once 61 p) as [m v] eqn:S. cbn in E. subst m.
    apply (H p v); [now left|now apply named_spec].
  - intros [H1 H2] q v [<-|I]; [|now apply H2]. intros Hn. apply named_spec in Hn. rewrite Hn in H1. now apply H1.
Qed.
Lemma given_cons p ps n v : given (p :: ps) n v <-> given ps n v \/ absent ps n /\ split_once 61 p = (n, v).
Proof.
  split.
  - intros (a & q & b & E & H & A). destruct a as [|x a]; cbn [app] in E; injection E as -> ->.
    + right. split; [exact A|now apply named_spec].
    + left. exists a, q, b. auto.
  - intros [(a & q & b & -> & H & A)|[A H]].
    + exists (p :: a), q, b. auto.
    + exists [], p, ps. split; [reflexivity|]. split; [now apply named_spec|exact A].
Qed.
Lemma given_nil n v : ~ given [] n v.
Proof. intros ([|? ?] & q & b & E & _); discriminate. Qed.
Lemma absent_or_given ps n : absent ps n \/ exists v, given ps n v.
Proof.
  induction ps as [|p ps [IH|[v IH]]]; [left; apply absent_nil| |].
  - destruct (split_once 61 p) as [m v] eqn:E. destruct (str_eq_dec m n) as [->|N].
    + right. exists v. apply given_cons. right. now split.
    + left. apply absent_cons. rewrite E. now split.
  - right. exists v. apply given_cons. now left.
Qed.
Lemma given_not_absent ps n v : given ps n v -> ~ absent ps n.
Proof. intros (a & p & b & -> & H & _) A. apply (A p v); [apply in_or_app; right; now left|exact H]. Qed.
Lemma given_unique ps n v w : given ps n v -> given ps n w -> v = w.
Proof.
  induction ps as [|p ps IH]; intros H1 H2; [now apply given_nil in H1|].
  apply given_cons in H1, H2. destruct H1 as [H1|[A1 H1]], H2 as [H2|[A2 H2]].
  - now apply IH.
  - now apply given_not_absent in H1.
  - now apply given_not_absent in H2.
  - congruence.
Qed.

(** A dictionary filled in the order of the list answers with the last one. *)
Lemma param_dict_from ps n : forall d : dict (option str),
  let d' := fold_left (fun d p => let '(n, v) := split_once 61 p in dset d n v) ps d in
  (absent ps n -> dget d' n = dget d n) /\ (forall v, given ps n v -> dget d' n = Some v).
Proof.
  induction ps as [|p ps IH]; intros d; cbn [fold_left].
  - split; [reflexivity|]. intros v H. now apply given_nil in H.
  - destruct (split_once 61 p) as [m w] eqn:E. specialize (IH (dset d m w)). destruct IH as [IA IG]. split.
    + intros A. apply absent_cons in A. rewrite E in A. destruct A as [N A]. rewrite IA by exact A.
      rewrite dget_dset. destruct (str_eqb_spec n m) as [->|]; [exfalso; apply N; reflexivity|reflexivity].
    + intros v G. apply given_cons in G. destruct G as [G|[A G]]; [now apply IG|].
      rewrite E in G. injection G as -> ->. rewrite IA by exact A. rewrite dget_dset, str_eqb_refl. reflexivity.
Qed.
Lemma param_dict_spec ps n : (absent ps n -> dget (param_dict ps) n = None) /\ (forall v, given ps n v -> dget (param_dict ps) n = Some v).
Proof. exact (param_dict_from ps n []). Qed.

(** ** Reading with conversions (http2, headerdiff) *)
Section Reading.
  Variable convert : str -> option (option str -> res pv).
  Definition value_of (n : str) (v : option str) : res pv :=
    match convert n with Some f => f v | None => Ok (VText v) end.

  Lemma read_params_ok ps : forall d d', read_params convert ps d = Ok d' ->
    (forall p n v, In p ps -> named p n v -> exists x, value_of n v = Ok x) /\
    forall n, (absent ps n -> dget d' n = dget d n) /\
              (forall v, given ps n v -> exists x, value_of n v = Ok x /\ dget d' n = Some x).
  Proof.
    induction ps as [|p ps IH]; intros d d' H; cbn [read_params] in H.
    - injection H as <-. split; [intros p n v []|]. intros n. split; [reflexivity|]. intros v G. now apply given_nil in G.
    - destruct (split_once 61 p) as [m w] eqn:E. fold (value_of m w) in H.
      destruct (value_of m w) as [x|] eqn:V; cbn [bind] in H; [|discriminate].
      destruct (IH _ _ H) as [H1 H2]. split.
      + intros q n v [<-|I] N; [|now apply (H1 q)]. apply named_spec in N. rewrite E in N. injection N as <- <-. now exists x.
      + intros n. destruct (H2 n) as [A G]. split.
        * intros A'. apply absent_cons in A'. rewrite E in A'. destruct A' as [N A']. rewrite A by exact A'.
          rewrite dget_dset. destruct (str_eqb_spec n m) as [->|]; [exfalso; apply N; reflexivity|reflexivity].
        * intros v G'. apply given_cons in G'. destruct G' as [G'|[A' G']]; [now apply G|].
          rewrite E in G'. injection G' as -> ->. exists x. split; [exact V|]. rewrite A by exact A'.
          rewrite dget_dset, str_eqb_refl. reflexivity.
  Qed.

  Lemma read_params_total ps : (forall p n v, In p ps -> named p n v -> exists x, value_of n v = Ok x) ->
    forall d, exists d', read_params convert ps d = Ok d'.
  Proof.
    induction ps as [|p ps IH]; intros H d; cbn [read_params]; [now exists d|].
    destruct (split_once 61 p) as [m w] eqn:E. fold (value_of m w).
    destruct (H p m w) as [x ->]; [now left|now apply named_spec|]. cbn [bind]. apply IH. intros q n v I. apply H. now right.
  Qed.

  Lemma read_params_err ps : forall d e, read_params convert ps d = Err e ->
    exists p n v, In p ps /\ named p n v /\ value_of n v = Err e.
  Proof.
    induction ps as [|p ps IH]; intros d e H; cbn [read_params] in H; [discriminate|].
    destruct (split_once 61 p) as [m w] eqn:E. fold (value_of m w) in H.
    destruct (value_of m w) as [x|] eqn:V; cbn [bind] in H.
    - destruct (IH _ _ H) as (q & n & v & I & N & X). exists q, n, v. split; [now right|now split].
    - injection H as ->. exists p, m, w. split; [now left|]. split; [now apply named_spec|exact V].
  Qed.
End Reading.

Lemma as_int_ok v x : as_int v = Ok x <-> exists z, says_integer v z /\ x = VInt z.
Proof.
  unfold as_int, int_of, says_integer. destruct v as [s|]; cbn [bind].
  - destruct (py_int s) as [z|e] eqn:E; cbn [bind].
    + split.
      * intros H. injection H as <-. exists z. split; [|reflexivity]. exists s. split; [reflexivity|now apply C92_integers].
      * intros (z' & (s' & Es & I) & ->). injection Es as <-. apply C92_integers in I. congruence.
    + split; [discriminate|]. intros (z' & (s' & Es & I) & ->). injection Es as <-. apply C92_integers in I. congruence.
  - split; [discriminate|]. intros (z' & (s' & Es & I) & ->). discriminate.
Qed.
Lemma as_int_err v e : as_int v = Err e <-> (v = None /\ e = TypeError) \/ (exists s, v = Some s /\ (~ exists z, integer s z) /\ e = ValueError).
Proof.
  unfold as_int, int_of. destruct v as [s|]; cbn [bind].
  - destruct (py_int s) as [z|e'] eqn:E; cbn [bind].
    + split; [discriminate|]. intros [[H _]|(s' & Hs & N & _)]; [discriminate|]. injection Hs as <-. exfalso. apply N.
      exists z. now apply C92_integers.
    + apply C92_no_integer in E. destruct E as [-> N]. split.
      * intros H. injection H as <-. right. exists s. auto.
      * intros [[H _]|(s' & _ & _ & ->)]; [discriminate|reflexivity].
  - split; [intros H; injection H as <-; now left|]. intros [[_ ->]|(s' & H & _)]; [reflexivity|discriminate].
Qed.

(** ** http2 *)

(** All parameters of these names have integers for values. *)
Definition all_integers (ps names : list str) : Prop :=
  forall p n v, In p ps -> In n names -> named p n v -> exists z, says_integer v z.

(** Which starting tables a parameter is_request asks for: any value but none
    or the empty one asks for those of requests ("false" does, too). *)
Definition says_request (v : option str) (t : bool) : Prop := t = true <-> exists c r, v = Some (c :: r).

Ltac names_differ := match goal with H : ?a = _ |- _ => fail | _ => discriminate end.

Theorem C92_http2 : forall is_request ps size requests,
  http2_args is_request ps = Ok (size, requests) <->
  all_integers ps [lit "buffer_size"] /\ absent ps (lit "self") /\
  field ps (lit "buffer_size") 4096%Z says_integer size /\ field ps (lit "is_request") is_request says_request requests.
Proof.
  intros q ps size t. unfold http2_args.
  set (d0 := [(lit "is_request", VBool q); (lit "buffer_size", VInt 4096)]).
  assert (V : forall n v, value_of http2_functions n v = if str_eqb n (lit "buffer_size") then as_int v else Ok (VText v)).
  { intros n v. unfold value_of, http2_functions. now destruct (str_eqb n (lit "buffer_size")). }
  assert (TT : forall v, says_request v (truth (VText v))).
  { intros [[|c r]|]; unfold says_request; cbn [truth]; (split; [|intros (c' & r' & H)]; try discriminate; try reflexivity).
    intros _. now exists c, r. }
  split.
  - destruct (read_params http2_functions ps d0) as [d|] eqn:R; cbn [bind]; [|discriminate].
    destruct (read_params_ok _ _ _ _ R) as [H1 H2].
    unfold din. destruct (H2 (lit "self")) as [As Gs].
    destruct (absent_or_given ps (lit "self")) as [A|[v G]].
    2:{ destruct (Gs v G) as (x & _ & ->). discriminate. }
    rewrite As by exact A. change (dget d0 (lit "self")) with (@None pv). cbv iota.
    destruct (H2 (lit "buffer_size")) as [Ab Gb], (H2 (lit "is_request")) as [Ar Gr].
    intros H. split.
    { intros p n v I [<-|[]] N. destruct (H1 p _ v I N) as [x X]. rewrite V, str_eqb_refl in X.
      apply as_int_ok in X. destruct X as (z & X & _). now exists z. }
    split; [exact A|].
    assert (Fr : forall x, dget d (lit "is_request") = Some x -> field ps (lit "is_request") q says_request (truth x)).
    { intros x Hx. destruct (absent_or_given ps (lit "is_request")) as [A'|[v G]].
      - left. split; [exact A'|]. rewrite Ar in Hx by exact A'. change (Some (VBool q) = Some x) in Hx. injection Hx as <-. reflexivity.
      - right. exists v. split; [exact G|]. destruct (Gr v G) as (y & Y & E). rewrite V in Y.
        change (Ok (VText v) = Ok y) in Y. injection Y as <-. rewrite E in Hx. injection Hx as <-. apply TT. }
    destruct (absent_or_given ps (lit "buffer_size")) as [A'|[v G]].
    + rewrite (Ab A') in H. change (dget d0 (lit "buffer_size")) with (Some (VInt 4096)) in H. cbv iota in H.
      destruct (dget d (lit "is_request")) as [x|] eqn:X; [|discriminate]. injection H as <- <-.
      split; [now left|now apply Fr].
    + destruct (Gb v G) as (y & Y & E). rewrite V, str_eqb_refl in Y. apply as_int_ok in Y. destruct Y as (z & Z & ->).
      rewrite E in H. destruct (dget d (lit "is_request")) as [x|] eqn:X; [|discriminate]. injection H as <- <-.
      split; [right; now exists v|now apply Fr].
  - intros (HI & HS & HB & HR).
    destruct (read_params_total http2_functions ps) with (d := d0) as [d R].
    { intros p n v I N. rewrite V. destruct (str_eqb_spec n (lit "buffer_size")) as [->|]; [|now eexists].
      destruct (HI p _ v I (or_introl eq_refl) N) as [z Z]. exists (VInt z). apply as_int_ok. now exists z. }
    rewrite R. cbn [bind]. destruct (read_params_ok _ _ _ _ R) as [_ H2].
    unfold din. rewrite (proj1 (H2 (lit "self")) HS). change (dget d0 (lit "self")) with (@None pv). cbv iota.
    assert (Eb : dget d (lit "buffer_size") = Some (VInt size)).
    { destruct HB as [[A ->]|(v & G & S)].
      - rewrite (proj1 (H2 _) A). reflexivity.
      - destruct (proj2 (H2 _) v G) as (x & X & ->). rewrite V, str_eqb_refl in X. apply as_int_ok in X.
        destruct X as (z & (s & Es & I) & ->). destruct S as (s' & Es' & I'). assert (s' = s) by congruence. subst s'.
        apply C92_integers in I, I'. congruence. }
    rewrite Eb. cbv iota.
    destruct HR as [[A ->]|(v & G & S)].
    + rewrite (proj1 (H2 _) A). reflexivity.
    + destruct (proj2 (H2 _) v G) as (x & X & ->). rewrite V in X. change (Ok (VText v) = Ok x) in X. injection X as <-.
      f_equal. f_equal. specialize (TT v). unfold says_request in *. destruct (truth (VText v)), t; try reflexivity; exfalso.
      * assert (E : exists c r, v = Some (c :: r)) by now apply TT. apply S in E. discriminate.
      * assert (E : exists c r, v = Some (c :: r)) by now apply S. apply TT in E. discriminate.
Qed.
Print Assumptions C92_http2.

(** What it raises otherwise. *)
Theorem C92_http2_raises : forall is_request ps e, http2_args is_request ps = Err e ->
  (e = TypeError /\ (In (lit "buffer_size") ps \/ ~ absent ps (lit "self"))) \/
  (e = ValueError /\ exists s, In (lit "buffer_size=" ++ s) ps /\ ~ exists z, integer s z).
Proof.
  intros q ps e. unfold http2_args.
  set (d0 := [(lit "is_request", VBool q); (lit "buffer_size", VInt 4096)]).
  assert (V : forall n v, value_of http2_functions n v = if str_eqb n (lit "buffer_size") then as_int v else Ok (VText v)).
  { intros n v. unfold value_of, http2_functions. now destruct (str_eqb n (lit "buffer_size")). }
  destruct (read_params http2_functions ps d0) as [d|e'] eqn:R; cbn [bind].
  - destruct (read_params_ok _ _ _ _ R) as [_ H2]. unfold din.
    destruct (absent_or_given ps (lit "self")) as [A|[v G]].
    + rewrite (proj1 (H2 (lit "self")) A). change (dget d0 (lit "self")) with (@None pv). cbv iota.
      assert (Eb : exists z, dget d (lit "buffer_size") = Some (VInt z)).
      { destruct (absent_or_given ps (lit "buffer_size")) as [A'|[v G]].
        - exists 4096%Z. rewrite (proj1 (H2 _) A'). reflexivity.
        - destruct (proj2 (H2 _) v G) as (x & X & ->). rewrite V, str_eqb_refl in X. apply as_int_ok in X.
          destruct X as (z & _ & ->). now exists z. }
      assert (Er : exists x, dget d (lit "is_request") = Some x).
      { destruct (absent_or_given ps (lit "is_request")) as [A'|[v G]].
        - eexists. rewrite (proj1 (H2 _) A'). reflexivity.
        - destruct (proj2 (H2 _) v G) as (x & _ & ->). now exists x. }
      destruct Eb as [z ->], Er as [x ->]. discriminate.
    + intros H. destruct (proj2 (H2 (lit "self")) v G) as (x & _ & E). rewrite E in H. injection H as <-.
      left. split; [reflexivity|]. right. now apply given_not_absent in G.
  - intros H. injection H as <-. destruct (read_params_err _ _ _ _ R) as (p & n & v & I & N & X). rewrite V in X.
    destruct (str_eqb_spec n (lit "buffer_size")) as [->|]; [|discriminate]. apply as_int_err in X.
    destruct X as [[-> ->]|(s & -> & NI & ->)].
    + left. split; [reflexivity|]. left. destruct N as [<- _]. exact I.
    + right. split; [reflexivity|]. exists s. split; [|exact NI]. destruct N as [-> _]. exact I.
Qed.
Print Assumptions C92_http2_raises.

(** ** headerdiff *)

(** "false" in letters of either case. *)
Definition spells_false (s : str) : Prop := Forall2 (fun c l => c = l \/ c + 32 = l) s (lit "false").
(** A flag is off only if its value is that. *)
Definition says_flag (v : option str) (x : bool) : Prop := x = false <-> exists s, v = Some s /\ spells_false s.

(** Every "\coma", from left to right, becomes a comma. *)
Inductive commas : str -> str -> Prop :=
| commas_end : commas [] []
| commas_one r r' : commas r r' -> commas (lit "\coma" ++ r) ([44] ++ r')
| commas_other c r r' : (forall t, c :: r <> lit "\coma" ++ t) -> commas r r' -> commas (c :: r) (c :: r').

Definition quote (c : N) : Prop := c = 34 \/ c = 39.
(** Which values may be shortened to a common beginning: any; those with so many
    references at most; or up to one of some limits. *)
Inductive says_delta : option str -> dtype -> Prop :=
| bare_delta : says_delta None DFull
| blank_delta s : Forall white s -> says_delta (Some s) DFull
| number_delta s z : integer s z -> says_delta (Some s) (DMax z)
| limits_delta a q l q' b l' : Forall white a -> Forall white b -> Forall quote q -> Forall quote q' ->
    trimmed_text (q ++ l ++ q') -> q ++ l ++ q' <> [] -> (~ exists z, integer (q ++ l ++ q') z) ->
    (forall c r, l = c :: r -> ~ quote c) -> (forall c r, l = r ++ [c] -> ~ quote c) -> commas l l' ->
    says_delta (Some (a ++ (q ++ l ++ q') ++ b)) (DBound l').

Lemma lower_char_spec c l : In l (lit "false") -> (lower_char c = l <-> c = l \/ c + 32 = l).
Proof.
  intros I. unfold lower_char. destruct (N.leb_spec 65 c) as [H1|H1]; [destruct (N.leb_spec c 90) as [H2|H2]|]; cbn [andb].
  - cbn in I. split; [lia|]. intros [->|H]; [|exact H]. repeat (destruct I as [<-|I]; [lia|]). contradiction.
  - split; [auto|]. intros [H|H]; [exact H|]. cbn in I. repeat (destruct I as [<-|I]; [lia|]). contradiction.
  - split; [auto|]. intros [H|H]; [exact H|]. cbn in I. repeat (destruct I as [<-|I]; [lia|]). contradiction.
Qed.

Lemma spells_spec s : lower s = lit "false" <-> spells_false s.
Proof.
  unfold spells_false, lower.
  assert (G : forall w, (forall l, In l w -> In l (lit "false")) -> forall s, map lower_char s = w <-> Forall2 (fun c l => c = l \/ c + 32 = l) s w).
  { induction w as [|l w IH]; intros Hw [|c r]; cbn [map].
    - split; [constructor|reflexivity].
    - split; [discriminate|intros H; inversion H].
    - split; [discriminate|intros H; inversion H].
    - assert (Hl : In l (lit "false")) by (apply Hw; now left).
      assert (Hw' : forall x, In x w -> In x (lit "false")) by (intros x Hx; apply Hw; now right).
      split.
      + intros H. injection H as H1 H2. constructor; [now apply lower_char_spec|now apply IH].
      + intros H. inversion H; subst. f_equal; [now apply lower_char_spec|now apply IH]. }
  apply G. auto.
Qed.

Lemma parse_bool_spec v : says_flag v (parse_bool v).
Proof.
  unfold says_flag, parse_bool. destruct v as [s|].
  - destruct (str_eqb_spec (lower s) (lit "false")) as [E|E]; cbn [negb].
    + split; [intros _|reflexivity]. exists s. split; [reflexivity|now apply spells_spec].
    + split; [discriminate|]. intros (s' & Es & H). injection Es as <-. apply spells_spec in H. contradiction.
  - split; [discriminate|]. intros (s & H & _). discriminate.
Qed.
Lemma says_flag_unique v x y : says_flag v x -> says_flag v y -> x = y.
Proof. unfold says_flag. intros H1 H2. destruct x, y; try reflexivity; exfalso.
  - assert (E : true = false) by (apply H1, H2; reflexivity). discriminate.
  - assert (E : true = false) by (apply H2, H1; reflexivity). discriminate.
Qed.

Lemma is_prefix_spec a : forall s, is_prefix a s = true <-> exists t, s = a ++ t.
Proof.
  induction a as [|x a IH]; intros s.
  - split; [intros _; now exists s|reflexivity].
  - destruct s as [|y s]; cbn [is_prefix].
    + split; [discriminate|intros [t H]; discriminate].
    + rewrite andb_true_iff, N.eqb_eq, IH. split.
      * intros [-> [t ->]]. now exists t.
      * intros [t H]. injection H as -> ->. split; [reflexivity|now exists t].
Qed.
Lemma replace_skip old new a : forall k t, length a = k -> replace_from old new k (a ++ t) = replace_from old new 0 t.
Proof.
  induction a as [|x a IH]; intros k t E; [subst k; reflexivity|].
  cbn [length] in E. subst k. cbn [app replace_from]. now apply IH.
Qed.
Lemma replace_spec s s' : replace (lit "\coma") (lit ",") s = s' <-> commas s s'.
Proof.
  split.
  - intros <-. remember (length s) as n eqn:En. assert (L : (length s <= n)%nat) by lia. clear En. revert s L.
    unfold replace.
    induction n as [|n IH]; intros [|c r] L; cbn [length] in L; try lia; [constructor|constructor|].
    cbn [replace_from]. destruct (is_prefix (lit "\coma") (c :: r)) eqn:P.
    + apply is_prefix_spec in P. destruct P as [t P]. rewrite P.
      change (lit "\coma" ++ t) with (92 :: ([99; 111; 109; 97] ++ t)) in P. injection P as -> ->.
      rewrite (replace_skip _ _ [99; 111; 109; 97] _ t) by reflexivity. apply commas_one. apply IH. cbn [length] in L. lia.
    + apply commas_other; [|apply IH; lia]. intros t H. rewrite (proj2 (is_prefix_spec _ _)) in P; [discriminate|now exists t].
  - induction 1 as [|r r' _ IH|c r r' N _ IH]; [reflexivity| |].
    + unfold replace in *. change (lit "\coma" ++ r) with (92 :: ([99; 111; 109; 97] ++ r)). cbn [replace_from].
      change (92 :: ([99; 111; 109; 97] ++ r)) with (lit "\coma" ++ r).
      rewrite (proj2 (is_prefix_spec (lit "\coma") (lit "\coma" ++ r))) by now exists r.
      rewrite (replace_skip _ _ [99; 111; 109; 97] _ r) by reflexivity. now rewrite IH.
    + unfold replace in *. cbn [replace_from]. destruct (is_prefix (lit "\coma") (c :: r)) eqn:P.
      * apply is_prefix_spec in P. destruct P as [t P]. now apply N in P.
      * now rewrite IH.
Qed.

Lemma quote_spec c : quote c <-> is_quote c = true.
Proof. unfold quote, is_quote. rewrite orb_true_iff, !N.eqb_eq. tauto. Qed.
Lemma quote_all l : Forall quote l <-> Forall (fun c => is_quote c = true) l.
Proof. split; apply Forall_impl; intros c; apply quote_spec. Qed.
Lemma unquoted_ends p : ((forall c r, p = c :: r -> ~ quote c) /\ (forall c r, p = r ++ [c] -> ~ quote c)) <-> no_ends is_quote p.
Proof.
  unfold no_ends. split.
  - intros [H1 H2]. split.
    + destruct p as [|c r]; [exact I|]. specialize (H1 c r eq_refl). rewrite quote_spec in H1. now destruct (is_quote c).
    + destruct (rev p) as [|c r] eqn:E; [exact I|].
      assert (Hp : p = rev r ++ [c]) by (rewrite <- (rev_involutive p), E; reflexivity).
      specialize (H2 c _ Hp). rewrite quote_spec in H2. now destruct (is_quote c).
  - intros [H1 H2]. split.
    + intros c r -> W. apply quote_spec in W. congruence.
    + intros c r -> W. rewrite rev_app_distr in H2. cbn in H2. apply quote_spec in W. congruence.
Qed.

(** The delta type a codec is made with. *)
Definition made_delta (t : dtype) : dtype :=
  match t with DBound l => DBound (replace (lit "\coma") (lit ",") l) | _ => t end.

Lemma integer_strip s z : integer (strip is_space s) z <-> integer s z.
Proof.
  rewrite <- !C92_integers. unfold py_int. rewrite strip_idem. reflexivity.
Qed.

Lemma parse_delta_spec v : says_delta v (made_delta (parse_delta v)).
Proof.
  destruct v as [s|]; cbn [parse_delta made_delta]; [|constructor].
  destruct (py_int (strip is_space s)) as [z|e] eqn:E.
  - apply number_delta. now apply integer_strip, C92_integers.
  - apply C92_no_integer in E. destruct E as [_ N].
    destruct (strip_spec is_space s) as (a & b & Es & A & B & NE). apply white_all in A, B.
    destruct (strip is_space s) as [|c r] eqn:S.
    + cbn [made_delta]. apply blank_delta. rewrite Es. cbn [app]. apply Forall_app. now split.
    + cbn [made_delta]. destruct (strip_spec is_quote (c :: r)) as (q & q' & Eq & Q & Q' & NQ).
      apply quote_all in Q, Q'. apply unquoted_ends in NQ. apply trimmed_no_ends in NE.
      rewrite Eq in NE. rewrite Es.
      replace (a ++ (c :: r) ++ b) with (a ++ (q ++ strip is_quote (c :: r) ++ q') ++ b) by (now rewrite <- Eq).
      apply limits_delta; try assumption; try apply NQ.
      * rewrite <- Eq. discriminate.
      * rewrite <- Eq. exact N.
      * now apply replace_spec.
Qed.

Lemma says_delta_only v t : says_delta v t -> t = made_delta (parse_delta v).
Proof.
  intros H. destruct H as [|s W|s z Z|a q l q' b l' A B Q Q' T NE NI H1 H2 C].
  - reflexivity.
  - cbn [parse_delta]. replace (strip is_space s) with (@nil N); [reflexivity|].
    symmetry. unfold strip. rewrite lstrip_all by (now apply white_all). reflexivity.
  - cbn [parse_delta]. apply integer_strip in Z. apply C92_integers in Z. rewrite Z. reflexivity.
  - apply trimmed_no_ends in T. apply white_all in A, B. apply quote_all in Q, Q'. cbn [parse_delta].
    rewrite strip_unique by assumption.
    destruct (py_int (q ++ l ++ q')) as [z|e] eqn:E.
    { exfalso. apply NI. exists z. now apply C92_integers. }
    destruct (q ++ l ++ q') as [|c r] eqn:L; [contradiction|]. rewrite <- L. cbn [made_delta].
    rewrite strip_unique by (try assumption; apply unquoted_ends; now split).
    f_equal. symmetry. now apply replace_spec.
Qed.

Definition says_window (v : option str) (w : option Z) : Prop := exists z, w = Some z /\ says_integer v z.

Theorem C92_headerdiff : forall ps a, hd_params ps = Ok a <->
  all_integers ps [lit "buffer"; lit "deflate"] /\
  field ps (lit "buffer") 32768%Z says_integer (ha_buffer a) /\
  field ps (lit "deflate") None says_window (ha_window a) /\
  field ps (lit "delta") true says_flag (ha_delta a) /\
  field ps (lit "delta_type") DFull says_delta (ha_dtype a) /\
  field ps (lit "huffman") false says_flag (ha_huffman a).
Proof.
  intros ps a. unfold hd_params.
  set (d0 := [(lit "buffer", VInt 32768); (lit "deflate", VText None); (lit "delta", VBool true);
              (lit "delta_type", VDelta DFull); (lit "huffman", VBool false)]).
  assert (OK : forall n v, ~ In n [lit "buffer"; lit "deflate"] -> exists x, value_of hd_functions n v = Ok x).
  { intros n v N. unfold value_of, hd_functions.
    destruct (str_eqb_spec n (lit "buffer")) as [->|]; [exfalso; apply N; cbn [In]; tauto|].
    destruct (str_eqb_spec n (lit "deflate")) as [->|]; [exfalso; apply N; cbn [In]; tauto|].
    destruct (str_eqb n (lit "delta")); [now eexists|]. destruct (str_eqb n (lit "delta_type")); [now eexists|].
    destruct (str_eqb n (lit "huffman")); now eexists. }
  assert (IV : forall n v, In n [lit "buffer"; lit "deflate"] -> value_of hd_functions n v = as_int v).
  { intros n v [<-|[<-|[]]]; reflexivity. }
  assert (OK2 : all_integers ps [lit "buffer"; lit "deflate"] <->
                (forall p n v, In p ps -> named p n v -> exists x, value_of hd_functions n v = Ok x)).
  { split.
    - intros H p n v I N. destruct (in_dec str_eq_dec n [lit "buffer"; lit "deflate"]) as [J|J]; [|now apply OK].
      rewrite IV by exact J. destruct (H p n v I J N) as [z Z]. exists (VInt z). apply as_int_ok. now exists z.
    - intros H p n v I J N. destruct (H p n v I N) as [x X]. rewrite IV in X by exact J. apply as_int_ok in X.
      destruct X as (z & Z & _). now exists z. }
  destruct (read_params hd_functions ps d0) as [d|e] eqn:R; cbn [bind].
  2:{ split; [discriminate|]. intros [H _]. destruct (read_params_total hd_functions ps) with (d := d0) as [d D].
      - intros p n v. apply OK2, H.
      - congruence. }
  destruct (read_params_ok _ _ _ _ R) as [H1 H2]. rewrite OK2.
  (* the five entries of the dictionary *)
  assert (Db : exists b, dget d (lit "buffer") = Some (VInt b) /\ forall b', field ps (lit "buffer") 32768%Z says_integer b' <-> b' = b).
  { destruct (H2 (lit "buffer")) as [A G]. destruct (absent_or_given ps (lit "buffer")) as [Ab|[v Gv]].
    - exists 32768%Z. split; [now rewrite A|]. intros b'. split; [|now left].
      intros [[_ ->]|(v & Gv & _)]; [reflexivity|]. now apply given_not_absent in Gv.
    - destruct (G v Gv) as (x & X & E). rewrite IV in X by (cbn [In]; tauto). apply as_int_ok in X. destruct X as (b & S & ->).
      exists b. split; [exact E|]. intros b'. split; [|intros ->; right; now exists v].
      intros [[Ab _]|(w & Gw & S')]; [now apply given_not_absent in Gv|]. rewrite (given_unique _ _ _ _ Gw Gv) in S'.
      destruct S as (s & -> & S), S' as (s' & Es & S'). injection Es as <-. apply C92_integers in S, S'. congruence. }
  assert (Dw : exists w, dget d (lit "deflate") = Some w /\
               forall w', field ps (lit "deflate") None says_window w' <-> w' = (match w with VInt z => Some z | _ => None end)).
  { destruct (H2 (lit "deflate")) as [A G]. destruct (absent_or_given ps (lit "deflate")) as [Ab|[v Gv]].
    - exists (VText None). split; [now rewrite A|]. intros b'. split; [|now left].
      intros [[_ ->]|(v & Gv & _)]; [reflexivity|]. now apply given_not_absent in Gv.
    - destruct (G v Gv) as (x & X & E). rewrite IV in X by (cbn [In]; tauto). apply as_int_ok in X. destruct X as (b & S & ->).
      exists (VInt b). split; [exact E|]. intros b'. split; [|intros ->; right; exists v; split; [exact Gv|now exists b]].
      intros [[Ab _]|(w & Gw & (z & -> & S'))]; [now apply given_not_absent in Gv|]. rewrite (given_unique _ _ _ _ Gw Gv) in S'.
      destruct S as (s & -> & S), S' as (s' & Es & S'). injection Es as <-. apply C92_integers in S, S'. congruence. }
  assert (Df : forall n def, value_of hd_functions n = (fun v => Ok (VBool (parse_bool v))) -> dget d0 n = Some (VBool def) ->
               exists u, dget d n = Some (VBool u) /\ forall u', field ps n def says_flag u' <-> u' = u).
  { intros n def Vn D0. destruct (H2 n) as [A G]. destruct (absent_or_given ps n) as [Ab|[v Gv]].
    - exists def. split; [now rewrite A|]. intros b'. split; [|now left].
      intros [[_ ->]|(v & Gv & _)]; [reflexivity|]. now apply given_not_absent in Gv.
    - destruct (G v Gv) as (x & X & E). rewrite Vn in X. injection X as <-.
      exists (parse_bool v). split; [exact E|]. intros b'. split.
      + intros [[Ab _]|(w & Gw & S')]; [now apply given_not_absent in Gv|]. rewrite (given_unique _ _ _ _ Gw Gv) in S'.
        exact (says_flag_unique _ _ _ S' (parse_bool_spec v)).
      + intros ->. right. exists v. split; [exact Gv|apply parse_bool_spec]. }
  assert (Dt : exists t, dget d (lit "delta_type") = Some (VDelta t) /\ forall t', field ps (lit "delta_type") DFull says_delta t' <-> t' = made_delta t).
  { destruct (H2 (lit "delta_type")) as [A G]. destruct (absent_or_given ps (lit "delta_type")) as [Ab|[v Gv]].
    - exists DFull. split; [now rewrite A|]. intros b'. split; [|now left].
      intros [[_ ->]|(v & Gv & _)]; [reflexivity|]. now apply given_not_absent in Gv.
    - destruct (G v Gv) as (x & X & E). change (Ok (VDelta (parse_delta v)) = Ok x) in X. injection X as <-.
      exists (parse_delta v). split; [exact E|]. intros b'. split.
      + intros [[Ab _]|(w & Gw & S')]; [now apply given_not_absent in Gv|]. rewrite (given_unique _ _ _ _ Gw Gv) in S'.
        now apply says_delta_only.
      + intros ->. right. exists v. split; [exact Gv|apply parse_delta_spec]. }
  destruct Db as (b & -> & Fb), Dw as (w & -> & Fw), Dt as (t & -> & Ft).
  destruct (Df (lit "delta") true eq_refl eq_refl) as (u & -> & Fu).
  destruct (Df (lit "huffman") false eq_refl eq_refl) as (h & -> & Fh).
  rewrite Fb, Fw, Fu, Ft, Fh. fold (made_delta t). split.
  - intros H. injection H as <-. split; [exact H1|]. repeat split; reflexivity.
  - destruct a as [b' w' u' t' h']. cbn [ha_buffer ha_window ha_delta ha_dtype ha_huffman].
    intros (_ & -> & -> & -> & -> & ->). reflexivity.
Qed.
Print Assumptions C92_headerdiff.

(** So "huffman=0", "huffman=no" and "delta=off" all switch on. *)
Theorem C92_headerdiff_other_words : forall s, ~ spells_false s ->
  exists a, hd_params [lit "huffman=" ++ s] = Ok a /\ ha_huffman a = true /\
            hd_params [lit "huffman"] = Ok a.
Proof.
  intros s N. exists (mk_hd_args 32768 None true DFull true). split; [|split; reflexivity].
  unfold hd_params. cbn [read_params]. change (lit "huffman=" ++ s) with (lit "huffman" ++ 61 :: s).
  rewrite split_once_app by (cbn; intros K; repeat (destruct K as [K|K]; [discriminate|]); contradiction).
  change (hd_functions (lit "huffman")) with (Some (fun v => Ok (VBool (parse_bool v)))). cbv iota. cbn [bind parse_bool].
  destruct (str_eqb_spec (lower s) (lit "false")) as [E|E]; [apply spells_spec in E; contradiction|]. reflexivity.
Qed.
Print Assumptions C92_headerdiff_other_words.

(** ** delta2 and delta *)

(** A flag with a value is on for four texts only; a bare name says nothing. *)
Definition says_true (default : bool) (v : option str) (x : bool) : Prop :=
  match v with
  | None => x = default
  | Some s => x = true <-> s = lit "True" \/ s = lit "true" \/ s = lit "1" \/ s = lit "t"
  end.
Definition says_size (v : option str) (x : option Z) : Prop := exists z, x = Some z /\ says_integer v z.

Lemma is_true_spec ps n def x : is_true (param_dict ps) n def = x <-> field ps n def (says_true def) x.
Proof.
  unfold is_true. destruct (param_dict_spec ps n) as [A G].
  destruct (absent_or_given ps n) as [Ab|[v Gv]].
  - rewrite A by exact Ab. split; [intros <-; now left|]. intros [[_ ->]|(v & Gv & _)]; [reflexivity|]. now apply given_not_absent in Gv.
  - rewrite (G v Gv).
    assert (F : field ps n def (says_true def) x <-> says_true def v x).
    { split.
      - intros [[Ab _]|(w & Gw & S)]; [now apply given_not_absent in Gv|]. now rewrite <- (given_unique _ _ _ _ Gw Gv).
      - intros S. right. now exists v. }
    rewrite F. destruct v as [s|]; cbn [says_true]; [|split; congruence].
    destruct (mem_str_spec s [lit "True"; lit "true"; lit "1"; lit "t"]) as [M|M]; cbn [In] in M.
    + split; [intros <-|].
      * split; [intros _|reflexivity]. destruct M as [M|[M|[M|[M|[]]]]]; subst s; tauto.
      * intros H. symmetry. apply H. destruct M as [M|[M|[M|[M|[]]]]]; subst s; tauto.
    + split; [intros <-|].
      * split; [discriminate|]. intros H. exfalso. apply M. destruct H as [H|[H|[H|H]]]; subst s; tauto.
      * intros H. destruct x; [|reflexivity]. exfalso. apply M. destruct (proj1 H eq_refl) as [E|[E|[E|E]]]; subst s; tauto.
Qed.

Lemma int_param_spec ps n x : int_param (param_dict ps) n = Ok x <-> field ps n None says_size x.
Proof.
  unfold int_param. destruct (param_dict_spec ps n) as [A G].
  destruct (absent_or_given ps n) as [Ab|[v Gv]].
  - rewrite A by exact Ab. split.
    + intros H. injection H as <-. now left.
    + intros [[_ ->]|(v & Gv & _)]; [reflexivity|]. now apply given_not_absent in Gv.
  - rewrite (G v Gv).
    assert (F : field ps n None says_size x <-> says_size v x).
    { split.
      - intros [[Ab _]|(w & Gw & S)]; [now apply given_not_absent in Gv|]. now rewrite <- (given_unique _ _ _ _ Gw Gv).
      - intros S. right. now exists v. }
    rewrite F. unfold says_size, says_integer, int_of. destruct v as [s|]; cbn [bind].
    + destruct (py_int s) as [z|e] eqn:E; cbn [bind].
      * split.
        { intros H. injection H as <-. exists z. split; [reflexivity|]. exists s. split; [reflexivity|now apply C92_integers]. }
        { intros (z' & -> & s' & Es & I). injection Es as <-. apply C92_integers in I. congruence. }
      * split; [discriminate|]. intros (z' & -> & s' & Es & I). injection Es as <-. apply C92_integers in I. congruence.
    + split; [discriminate|]. intros (z' & -> & s' & Es & I). discriminate.
Qed.

Theorem C92_delta2 : forall ps o, d2_params ps = Ok o <->
  field ps (lit "max_byte_size") None says_size (o_max_byte_size o) /\
  field ps (lit "max_entries") None says_size (o_max_entries o) /\
  field ps (lit "small_index") true (says_true true) (o_small_index o) /\
  field ps (lit "varint_encoding") true (says_true true) (o_varint o) /\
  field ps (lit "hg_adjust") false (says_true false) (o_hg_adjust o) /\
  field ps (lit "implicit_hg_add") false (says_true false) (o_implicit_hg_add o) /\
  field ps (lit "refcnt_vals") false (says_true false) (o_refcnt_vals o) /\
  field ps (lit "only_etoggles") false (says_true false) (o_only_etoggles o) /\
  field ps (lit "idx_from_end") true (says_true true) (o_idx_from_end o).
Proof.
  intros ps o. unfold d2_params. rewrite <- !int_param_spec, <- !is_true_spec. split.
  - destruct (int_param (param_dict ps) (lit "max_byte_size")) as [b|]; cbn [bind]; [|discriminate].
    destruct (int_param (param_dict ps) (lit "max_entries")) as [e|]; cbn [bind]; [|discriminate].
    intros H. injection H as <-.
    cbn [o_max_byte_size o_max_entries o_small_index o_varint o_hg_adjust o_implicit_hg_add o_refcnt_vals o_only_etoggles o_idx_from_end].
    repeat split.
  - destruct o as [b e si vi ha ih rv oe ie].
    cbn [o_max_byte_size o_max_entries o_small_index o_varint o_hg_adjust o_implicit_hg_add o_refcnt_vals o_only_etoggles o_idx_from_end].
    intros (-> & -> & -> & -> & -> & -> & -> & -> & ->). reflexivity.
Qed.
Print Assumptions C92_delta2.

(** Bare names leave everything as it is: "delta2=hg_adjust" is "delta2". *)
Theorem C92_delta2_bare : forall ps, Forall (fun p => ~ In 61 p) ps ->
  ~ In (lit "max_byte_size") ps -> ~ In (lit "max_entries") ps -> d2_params ps = Ok default_options.
Proof.
  intros ps F Nb Ne. apply C92_delta2.
  assert (A : forall n, ~ In n ps -> absent ps n).
  { intros n N p v I H. rewrite Forall_forall in F. specialize (F p I). destruct v as [w|]; destruct H as [-> _].
    - apply F. apply in_or_app. right. now left.
    - contradiction. }
  assert (B : forall n def, field ps n def (says_true def) def).
  { intros n def. destruct (absent_or_given ps n) as [Ab|[v Gv]]; [now left|]. right. exists v. split; [exact Gv|].
    destruct v as [w|]; [|reflexivity]. exfalso. destruct Gv as (a & p & b & -> & [-> _] & _). rewrite Forall_forall in F.
    apply (F (n ++ [61] ++ w)); [apply in_or_app; right; now left|]. apply in_or_app. right. now left. }
  unfold default_options.
  cbn [o_max_byte_size o_max_entries o_small_index o_varint o_hg_adjust o_implicit_hg_add o_refcnt_vals o_only_etoggles o_idx_from_end].
  split; [left; split; [now apply A|reflexivity]|]. split; [left; split; [now apply A|reflexivity]|].
  repeat split; apply B.
Qed.
Print Assumptions C92_delta2_bare.

(** What the number of entries amounts to: 65 pairs are there from the start, and
    with one-octet indices, which are on unless switched off, at most 190 more. *)
Theorem C92_delta2_entries : forall o,
  c_max_entries (config o) =
    (let asked := match o_max_entries o with Some m => Z.min 65470 m | None => 1024 end in
     if o_small_index o then Z.min 190 asked else asked)%Z.
Proof.
  intros o. unfold config. replace (Z.of_nat (length default_kvs)) with 65%Z by (vm_compute; reflexivity).
  destruct (o_small_index o), (o_max_entries o) as [m|]; reflexivity.
Qed.
Print Assumptions C92_delta2_entries.

(** In all codecs with integers, an integer that is none raises, even if a
    later parameter of the same name is right (http2, headerdiff); here the last one counts. *)
Theorem C92_delta_sizes : forall ps b e, d1_params ps = Ok (b, e) <->
  (exists x, field ps (lit "max_byte_size") None says_size x /\ b = match x with Some z => z | None => 16384%Z end) /\
  (exists x, field ps (lit "max_entries") None says_size x /\ e = match x with Some z => z | None => 4096%Z end).
Proof.
  intros ps b e. unfold d1_params. split.
  - destruct (int_param (param_dict ps) (lit "max_byte_size")) as [x|] eqn:X; cbn [bind]; [|discriminate].
    destruct (int_param (param_dict ps) (lit "max_entries")) as [y|] eqn:Y; cbn [bind]; [|discriminate].
    intros H. injection H as <- <-. apply int_param_spec in X, Y. split; [exists x|exists y]; split; auto.
  - intros [(x & X & ->) (y & Y & ->)]. apply int_param_spec in X, Y. rewrite X, Y. reflexivity.
Qed.
Print Assumptions C92_delta_sizes.

Theorem C92_delta_raises : forall ps e, d1_params ps = Err e \/ d2_params ps = Err e ->
  exists n v, In n [lit "max_byte_size"; lit "max_entries"] /\ given ps n v /\
    (v = None /\ e = TypeError \/ exists s, v = Some s /\ (~ exists z, integer s z) /\ e = ValueError).
Proof.
  intros ps e H.
  assert (K : int_param (param_dict ps) (lit "max_byte_size") = Err e \/ int_param (param_dict ps) (lit "max_entries") = Err e).
  { unfold d1_params, d2_params in H.
    destruct (int_param (param_dict ps) (lit "max_byte_size")) as [x|x]; cbn [bind] in H.
    - destruct (int_param (param_dict ps) (lit "max_entries")) as [y|y]; cbn [bind] in H; destruct H as [H|H]; try discriminate; auto;
        injection H as ->; auto.
    - destruct H as [H|H]; injection H as ->; auto. }
  assert (L : exists n, In n [lit "max_byte_size"; lit "max_entries"] /\ int_param (param_dict ps) n = Err e).
  { destruct K as [K|K]; eexists; (split; [|exact K]); cbn [In]; tauto. }
  destruct L as (n & I & L). unfold int_param in L. destruct (param_dict_spec ps n) as [A G].
  destruct (absent_or_given ps n) as [Ab|[v Gv]]; [rewrite (A Ab) in L; discriminate|].
  exists n, v. split; [exact I|]. split; [exact Gv|]. rewrite (G v Gv) in L.
  assert (M : as_int v = Err e).
  { unfold as_int. destruct (int_of v); cbn [bind] in *; [discriminate|]. injection L as ->. reflexivity. }
  apply as_int_err in M. exact M.
Qed.
Print Assumptions C92_delta_raises.

(** ** simple *)

(** Of the parameters with an equals sign the last one of a name counts; the bare
    name max_entries is ignored. *)
Definition assigned (ps : list str) (n v : str) : Prop :=
  exists a b, ps = a ++ (n ++ [61] ++ v) :: b /\ forall p w, In p b -> ~ named p n (Some w).
Definition unassigned (ps : list str) (n : str) : Prop := forall p w, In p ps -> ~ named p n (Some w).

Lemma pd_spec ps n : ~ In 61 n -> forall d : dict str,
  let d' := fold_left (fun d p => match split_once 61 p with (n, Some v) => dset d n v | (_, None) => d end) ps d in
  (unassigned ps n /\ dget d' n = dget d n) \/ exists v, assigned ps n v /\ dget d' n = Some v.
Proof.
  intros Hn. induction ps as [|p ps IH]; intros d; cbn [fold_left].
  - left. split; [intros p w []|reflexivity].
  - destruct (split_once 61 p) as [m [w|]] eqn:E.
    + destruct (IH (dset d m w)) as [[U H]|(v & (a & b & -> & N) & H)].
      * destruct (str_eq_dec m n) as [->|D].
        { right. exists w. split.
          - exists [], ps. split; [|exact U]. apply named_spec in E. destruct E as [-> _]. reflexivity.
          - rewrite H, dget_dset, str_eqb_refl. reflexivity. }
        { left. split.
          - intros q x [<-|I]; [|now apply U]. intros Q. apply named_spec in Q. congruence.
          - rewrite H, dget_dset. destruct (str_eqb_spec n m); [congruence|reflexivity]. }
      * right. exists v. split; [|exact H]. exists (p :: a), b. split; [reflexivity|exact N].
    + destruct (IH d) as [[U H]|(v & (a & b & -> & N) & H)].
      * left. split; [|exact H]. intros q x [<-|I]; [|now apply U]. intros Q. apply named_spec in Q. congruence.
      * right. exists v. split; [|exact H]. exists (p :: a), b. split; [reflexivity|exact N].
Qed.

Theorem C92_simple : forall ps,
  exists max, s_params ps = (let* m := max in Ok (mk_s_args
      (if in_dec str_eq_dec (lit "seven") ps then Seven else if in_dec str_eq_dec (lit "huffman") ps then ZHuffman else Plain)
      (if in_dec str_eq_dec (lit "date") ps then true else false) m)) /\
    ((unassigned ps (lit "max_entries") /\ max = Ok 9999999999%Z) \/
     exists s, assigned ps (lit "max_entries") s /\
       ((exists z, integer s z /\ max = Ok z) \/ (~ exists z, integer s z) /\ max = Err ValueError)).
Proof.
  intros ps. unfold s_params.
  assert (M : forall x (A : Type) (a b : A), (if mem_str x ps then a else b) = if in_dec str_eq_dec x ps then a else b).
  { intros x A a b. destruct (mem_str_spec x ps), (in_dec str_eq_dec x ps); try reflexivity; contradiction. }
  assert (M' : forall x, mem_str x ps = if in_dec str_eq_dec x ps then true else false).
  { intros x. rewrite <- M. now destruct (mem_str x ps). }
  rewrite !M, M'. cbv zeta.
  assert (N : ~ In 61 (lit "max_entries")) by (cbn; intros K; repeat (destruct K as [K|K]; [discriminate|]); contradiction).
  destruct (pd_spec ps (lit "max_entries") N []) as [[U H]|(v & As & H)]; cbv zeta in H.
  - rewrite H. eexists. split; [reflexivity|]. left. split; [exact U|reflexivity].
  - rewrite H. eexists. split; [reflexivity|]. right. exists v. split; [exact As|].
    destruct (py_int v) as [z|e] eqn:E.
    + left. exists z. split; [now apply C92_integers|reflexivity].
    + right. apply C92_no_integer in E. destruct E as [-> N']. auto.
Qed.
Print Assumptions C92_simple.

(** fork needs a program. *)
Theorem C92_fork : forall ps, (ps = [] /\ fork_params ps = Err IndexError) \/
  exists program r sized, ps = program :: r /\ fork_params ps = Ok (program, sized) /\ (sized = true <-> In (lit "bin") r).
Proof.
  intros [|p r]; [now left|]. right. exists p, r, (mem_str (lit "bin") r). split; [reflexivity|]. split; [reflexivity|].
  destruct (mem_str_spec (lit "bin") r); split; intros; try reflexivity; try assumption; try discriminate. contradiction.
Qed.
Print Assumptions C92_fork.

Theorem C92_spdy3 : forall ps, spdy3_params ps = true <-> In (lit "dict") ps.
Proof. intros ps. unfold spdy3_params. destruct (mem_str_spec (lit "dict") ps); split; intros; try reflexivity; try assumption; try discriminate. contradiction. Qed.
Print Assumptions C92_spdy3.

Example C92_example :
  http2_args true [lit "buffer_size=1024"] = Ok (1024%Z, true) /\
  http2_args true [lit "is_request=false"; lit "nothing"] = Ok (4096%Z, true) /\
  http2_args true [lit "is_request"] = Ok (4096%Z, false) /\
  http2_args false [lit "buffer_size"] = Err TypeError /\ http2_args false [lit "self"] = Err TypeError /\
  http2_args false [lit "buffer_size=1k"; lit "buffer_size=1024"] = Err ValueError /\
  hd_params [lit "buffer=- 1"; lit "delta_type='/&\coma'"; lit "huffman=0"; lit "delta=FALSE"; lit "Huffman=false"] =
    Ok (mk_hd_args (-1) None false (DBound (lit "/&,")) true) /\
  hd_params [lit "delta_type= 7"] = Ok (mk_hd_args 32768 None true (DMax 7) false) /\
  d2_params [lit "hg_adjust"; lit "max_entries=x"; lit "max_entries=16"; lit "small_index=0"; lit "refcnt_vals=t"] =
    Ok (mk_options None (Some 16%Z) false true false false true false true) /\
  d1_params [lit "max_entries= +12 "] = Ok (16384%Z, 12%Z) /\
  s_params [lit "huffman"; lit "seven"; lit "max_entries=3"; lit "max_entries"] = Ok (mk_s_args Seven false 3).
Proof. vm_compute. repeat split. Qed.
