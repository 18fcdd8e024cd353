(** * Property C91: the text of a -c option, lib/processors.py get_processors. *)
From Coq Require Import String List NArith ZArith Bool Arith Lia.
From Verif Require Import PyBase PyStr Lib_Model.
Import ListNotations.
Open Scope N_scope.
Open Scope py_scope.

(** White space, in Python's sense for octets. *)
Definition white (c : N) : Prop := c = 32 \/ 9 <= c <= 13.

(** No white space at either end. *)
Definition trimmed_text (p : str) : Prop :=
  (forall c r, p = c :: r -> ~ white c) /\ (forall c r, p = r ++ [c] -> ~ white c).

(** [p] is [raw] without the white space around it. *)
Definition stripped (raw p : str) : Prop :=
  trimmed_text p /\ exists a b, raw = a ++ p ++ b /\ Forall white a /\ Forall white b.

(** [raws] are the pieces of [inner] between its commas (44). *)
Definition pieces (inner : str) (raws : list str) : Prop :=
  raws <> [] /\ Forall (fun r => ~ In 44 r) raws /\ inner = join [44] raws.

(** The text behind the equals sign, without the quotation marks (34) that may
    be around it.  One quotation mark alone counts as both. *)
Inductive unquoted : str -> str -> Prop :=
| bare s : s <> [] -> ~ (exists m, s = [34] ++ m ++ [34]) -> s <> [34] -> unquoted s s
| around m : unquoted ([34] ++ m ++ [34]) m
| alone : unquoted [34] [].

(** What a text means: a name, or a name and, after the first equals sign (61), parameters. *)
Inductive means : str -> str -> list str -> Prop :=
| only_name n : ~ In 61 n -> means n n []
| with_params n s inner raws ps : ~ In 61 n -> unquoted s inner -> pieces inner raws -> Forall2 stripped raws ps ->
    means (n ++ [61] ++ s) n ps.

Lemma white_spec c : white c <-> is_space c = true.
Proof.
  unfold white, is_space. rewrite orb_true_iff, andb_true_iff, N.eqb_eq, !N.leb_le. tauto.
Qed.
Lemma white_all l : Forall white l <-> Forall (fun c => is_space c = true) l.
Proof. split; apply Forall_impl; intros c; apply white_spec. Qed.

Lemma trimmed_no_ends p : trimmed_text p <-> no_ends is_space p.
Proof.
  unfold trimmed_text, no_ends. split.
  - intros [H1 H2]. split.
    + destruct p as [|c r]; [exact I|]. specialize (H1 c r eq_refl). rewrite white_spec in H1.
      now destruct (is_space c).
    + destruct (rev p) as [|c r] eqn:E; [exact I|].
      assert (Hp : p = rev r ++ [c]) by (rewrite <- (rev_involutive p), E; reflexivity).
      specialize (H2 c _ Hp). rewrite white_spec in H2. now destruct (is_space c).
  - intros [H1 H2]. split.
    + intros c r -> W. apply white_spec in W. congruence.
    + intros c r -> W. rewrite rev_app_distr in H2. cbn in H2. apply white_spec in W. congruence.
Qed.

Lemma stripped_spec raw p : stripped raw p <-> p = strip is_space raw.
Proof.
  split.
  - intros (T & a & b & -> & A & B). apply trimmed_no_ends in T. symmetry. apply white_all in A, B.
    now apply strip_unique.
  - intros ->. split; [apply trimmed_no_ends, strip_no_ends|].
    destruct (strip_spec is_space raw) as (a & b & E & A & B & _). exists a, b. split; [exact E|].
    split; apply white_all; assumption.
Qed.

Lemma stripped_map raws ps : Forall2 stripped raws ps <-> ps = map (strip is_space) raws.
Proof.
  split.
  - induction 1 as [|r p rs ps H _ IH]; cbn [map]; [reflexivity|]. apply stripped_spec in H. congruence.
  - intros ->. induction raws; constructor; [now apply stripped_spec|assumption].
Qed.

Lemma pieces_spec inner raws : pieces inner raws <-> raws = split_on 44 inner.
Proof.
  split.
  - intros (H1 & H2 & ->). symmetry. now apply split_on_join.
  - intros ->. split; [apply split_on_nonempty|]. split; [apply split_on_nosep|]. symmetry. apply join_split.
Qed.

Lemma unquoted_spec c r inner : unquoted (c :: r) inner <->
  inner = if (c =? List.last r c) && (List.last r c =? 34) then removelast r else c :: r.
Proof.
  split.
  - intros U. inversion U as [s Hs Hn H1 E1 E2|m E1 E2|E1 E2].
    + destruct (N.eqb_spec c (List.last r c)) as [E|E]; cbn [andb]; [|reflexivity].
      destruct (N.eqb_spec (List.last r c) 34) as [F|F]; [|reflexivity].
      exfalso. destruct r as [|x r'].
      * cbn in F. subst. now apply H1.
      * apply Hn. exists (removelast (x :: r')).
        assert (L : List.last (x :: r') c = 34) by exact F.
        rewrite <- L at 2. rewrite <- app_removelast_last by discriminate. cbn [app]. rewrite <- F, <- E. reflexivity.
    + subst. rewrite last_last, removelast_last. reflexivity.
    + subst. reflexivity.
  - intros ->. destruct (N.eqb_spec c (List.last r c)) as [E|E]; cbn [andb].
    + destruct (N.eqb_spec (List.last r c) 34) as [F|F].
      * destruct r as [|x r'].
        { cbn in *. subst. apply alone. }
        assert (H : x :: r' = removelast (x :: r') ++ [34]).
        { rewrite <- F. apply app_removelast_last. discriminate. }
        rewrite H at 1. rewrite E, F. apply (around (removelast (x :: r'))).
      * apply bare; [discriminate| |].
        { intros [m Hm]. cbn [app] in Hm. injection Hm as -> ->. rewrite last_last in F. now apply F. }
        { intros Hc. injection Hc as -> ->. now apply F. }
    + apply bare; [discriminate| |].
      * intros [m Hm]. cbn [app] in Hm. injection Hm as -> ->. rewrite last_last in E. now apply E.
      * intros Hc. injection Hc as -> ->. now apply E.
Qed.

Lemma unquoted_nil inner : ~ unquoted [] inner.
Proof. intros U. inversion U; congruence. Qed.

Theorem C91_options : forall text name params,
  parse_spec text = Ok (name, params) <-> means text name params.
Proof.
  intros text name params. unfold parse_spec. pose proof (split_once_spec 61 text) as S.
  split.
  - destruct (split_once 61 text) as [m [s|]].
    + destruct S as [-> Hm]. unfold parse_params. destruct s as [|c r]; [discriminate|].
      cbn [bind]. intros H. injection H as <- <-.
      eapply (with_params _ (c :: r)); [exact Hm|apply unquoted_spec; reflexivity|apply pieces_spec; reflexivity|].
      now apply stripped_map.
    + destruct S as [-> Hm]. intros H. injection H as <- <-. now apply only_name.
  - intros M. destruct M as [n Hn|n s inner raws ps Hn U P F].
    + now rewrite split_once_none.
    + cbn [app]. rewrite split_once_app by exact Hn. cbn [parse_params]. destruct s as [|c r]; [now apply unquoted_nil in U|].
      apply unquoted_spec in U. apply pieces_spec in P. apply stripped_map in F. subst. reflexivity.
Qed.
Print Assumptions C91_options.

(** The only way to raise: an equals sign with nothing after it. *)
Theorem C91_raises : forall text e,
  parse_spec text = Err e <-> e = IndexError /\ exists name, ~ In 61 name /\ text = name ++ [61].
Proof.
  intros text e. unfold parse_spec. pose proof (split_once_spec 61 text) as S. split.
  - destruct (split_once 61 text) as [m [s|]]; [|discriminate]. destruct S as [-> Hm].
    destruct s as [|c r]; cbn [parse_params bind]; [|discriminate].
    intros H. injection H as <-. split; [reflexivity|]. now exists m.
  - intros (-> & n & Hn & ->). now rewrite split_once_app.
Qed.
Print Assumptions C91_raises.

(** No parameter has a comma, or white space around it; there is one at least if there is an equals sign. *)
Theorem C91_parameters : forall text name params, parse_spec text = Ok (name, params) ->
  ~ In 61 name /\ (params = [] <-> ~ In 61 text) /\ Forall (fun p => ~ In 44 p /\ trimmed_text p) params.
Proof.
  intros text name params H. apply C91_options in H. destruct H as [n Hn|n s inner raws ps Hn U P F].
  - split; [exact Hn|]. split; [tauto|constructor].
  - split; [exact Hn|]. split.
    + split; intros H.
      * subst ps. inversion F; subst. destruct P as [P _]. now contradiction P.
      * exfalso. apply H. apply in_or_app. right. left. reflexivity.
    + destruct P as (_ & P & _). clear -P F. induction F as [|r p rs ps H F IH]; constructor.
      * inversion P; subst. split; [|apply H]. destruct H as (_ & a & b & -> & _). intros I.
        apply H2. apply in_or_app. right. apply in_or_app. now left.
      * inversion P; subst. now apply IH.
Qed.
Print Assumptions C91_parameters.

(** Every list of such parameters can be asked for. *)
Theorem C91_every_list : forall name params, ~ In 61 name -> params <> [] ->
  Forall (fun p => ~ In 44 p /\ trimmed_text p) params ->
  parse_spec (name ++ [61; 34] ++ join [44] params ++ [34]) = Ok (name, params).
Proof.
  intros name params Hn Hp F. apply C91_options.
  change ([61; 34] ++ join [44] params ++ [34]) with ([61] ++ ([34] ++ join [44] params ++ [34])).
  apply with_params with (inner := join [44] params) (raws := params); [exact Hn|apply around| |].
  - split; [exact Hp|]. split; [|reflexivity]. eapply Forall_impl; [|exact F]. now intros a [H _].
  - apply stripped_map. clear -F. induction F as [|p ps [_ H] F IH]; [reflexivity|]. cbn [map].
    apply trimmed_no_ends in H. rewrite strip_id by exact H. now rewrite <- IH.
Qed.
Print Assumptions C91_every_list.

(** The name shown in reports tells the codec and the parameters, for codecs
    whose names have no dot, blank or parenthesis. *)
Lemma join_comma_space ps : forall p, split_on 44 (join [44; 32] (p :: ps)) =
  match map (split_on 44) (p :: ps) with
  | [] => []
  | a :: r => a ++ flat_map (fun l => match l with [] => [] | x :: t => (32 :: x) :: t end) r
  end.
Proof.
  induction ps as [|q ps IH]; intros p.
  - cbn [join map flat_map]. now rewrite app_nil_r.
  - change (join [44; 32] (p :: q :: ps)) with (p ++ [44; 32] ++ join [44; 32] (q :: ps)).
    change ([44; 32] ++ join [44; 32] (q :: ps)) with (44 :: 32 :: join [44; 32] (q :: ps)).
    rewrite split_on_app. cbn [map flat_map]. f_equal.
    change (split_on 44 (32 :: join [44; 32] (q :: ps))) with
      (match split_on 44 (join [44; 32] (q :: ps)) with [] => [[32]] | x :: t => (32 :: x) :: t end).
    rewrite IH. cbn [map]. pose proof (split_on_nonempty 44 q) as Hq.
    destruct (split_on 44 q) as [|x t]; [contradiction|]. cbn [app]. reflexivity.
Qed.

Lemma join_comma_space_inj ps qs : ps <> [] -> qs <> [] -> Forall (fun p => ~ In 44 p) ps -> Forall (fun p => ~ In 44 p) qs ->
  join [44; 32] ps = join [44; 32] qs -> ps = qs.
Proof.
  intros Hp Hq Fp Fq E. destruct ps as [|p ps]; [contradiction|]. destruct qs as [|q qs]; [contradiction|].
  assert (H : forall p ps, Forall (fun p => ~ In 44 p) (p :: ps) ->
            split_on 44 (join [44; 32] (p :: ps)) = p :: map (cons 32) ps).
  { clear. intros p ps F. rewrite join_comma_space. inversion F as [|? ? H0 F']; subst. cbn [map].
    rewrite (split_on_free 44 p) by exact H0. cbn [app]. f_equal.
    clear -F'. induction F' as [|q qs H F IH]; [reflexivity|]. cbn [map flat_map].
    rewrite (split_on_free 44 q) by exact H. cbn [app]. now rewrite IH. }
  apply (f_equal (split_on 44)) in E. rewrite !H in E by assumption. injection E as -> E. f_equal.
  clear -E. revert qs E. induction ps as [|a ps IH]; intros [|b qs] E; try discriminate; [reflexivity|].
  cbn [map] in E. injection E as -> E. f_equal. now apply IH.
Qed.

Lemma display_plain m ps : ~ In 46 m -> display_name m ps = m ++ match ps with [] => [] | _ => [32; 40] ++ join [44; 32] ps ++ [41] end.
Proof.
  intros H. unfold display_name.
  change (lit "compressor." ++ m) with (lit "compressor" ++ 46 :: m).
  rewrite split_on_app. rewrite (split_on_free 46 m) by exact H. rewrite last_last.
  destruct ps; [now rewrite app_nil_r|reflexivity].
Qed.

Theorem C91_shown : forall text text' name name' params params',
  parse_spec text = Ok (name, params) -> parse_spec text' = Ok (name', params') ->
  ~ In 46 name -> ~ In 46 name' -> ~ In 32 name -> ~ In 32 name' ->
  display_name name params = display_name name' params' -> name = name' /\ params = params'.
Proof.
  intros text text' n n' ps ps' H H' D D' B B' E.
  apply C91_parameters in H, H'. destruct H as (_ & _ & F), H' as (_ & _ & F').
  rewrite !display_plain in E by assumption.
  assert (K : forall n n' r r', ~ In 32 n -> ~ In 32 n' -> (r = [] \/ exists t, r = 32 :: t) -> (r' = [] \/ exists t, r' = 32 :: t) ->
            n ++ r = n' ++ r' -> n = n' /\ r = r').
  { clear. induction n as [|c n IH]; intros [|c' n'] r r' N N' R R' E; cbn [app] in E.
    - now split.
    - subst r. destruct R as [R|[t R]]; [discriminate|]. injection R as -> _. exfalso. apply N'. now left.
    - subst r'. destruct R' as [R'|[t R']]; [discriminate|]. injection R' as -> _. exfalso. apply N. now left.
    - injection E as -> E. destruct (IH n' r r') as [-> ->]; auto; intros I; [apply N|apply N']; now right. }
  apply K in E; auto.
  - destruct E as [-> E]. split; [reflexivity|].
    destruct ps as [|p ps], ps' as [|p' ps']; try discriminate; [reflexivity|].
    cbn [app] in E. injection E as E. apply app_inj_tail in E. destruct E as [E _].
    apply join_comma_space_inj; try discriminate; try exact E; eapply Forall_impl; try eassumption; now intros a [? _].
  - destruct ps; [now left|]. right. eexists. reflexivity.
  - destruct ps'; [now left|]. right. eexists. reflexivity.
Qed.
Print Assumptions C91_shown.

Example C91_example :
  parse_spec (lit "simple=seven, max_entries=5") = Ok (lit "simple", [lit "seven"; lit "max_entries=5"]) /\
  parse_spec (lit "fork=" ++ [34] ++ lit "a.py, bin " ++ [34]) = Ok (lit "fork", [lit "a.py"; lit "bin"]) /\
  parse_spec (lit "delta2=") = Err IndexError /\ parse_spec (lit "delta2") = Ok (lit "delta2", []) /\
  parse_spec (lit "spdy3=" ++ [34]) = Ok (lit "spdy3", [[]]) /\
  display_name (lit "simple") [lit "seven"; lit "date"] = lit "simple (seven, date)".
Proof. vm_compute. repeat split. Qed.

(** Without the conditions on the names it can be told wrong: two options shown alike. *)
Example C91_shown_alike :
  parse_spec (lit "a.http2") = Ok (lit "a.http2", []) /\
  display_name (lit "a.http2") [] = display_name (lit "http2") [].
Proof. vm_compute. split; reflexivity. Qed.
