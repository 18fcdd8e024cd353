(** * Property C107: the command line. *)
From Coq Require Import String List NArith ZArith Bool Arith Lia.
From Verif Require Import PyBase PyStr Cmd_Model.
Import ListNotations.
Open Scope N_scope.

(** ** Specification *)

Definition letter (o : opt) : str :=
  match o with Help => lit "h" | Verbose => lit "v" | Debug => lit "d" | Codec => lit "c" | Baseline => lit "b" | Tsv => lit "t"
             | Streamifier => lit "s" | Prefix => [] end.
Definition full (o : opt) : str :=
  match o with Help => lit "help" | Verbose => lit "verbose" | Debug => lit "debug" | Codec => lit "codec" | Baseline => lit "baseline"
             | Tsv => lit "tsv" | Streamifier => lit "streamifier" | Prefix => lit "prefix" end.
Definition is_flag (o : opt) : Prop := o = Debug \/ o = Tsv.
Definition valued (o : opt) : Prop := o = Verbose \/ o = Codec \/ o = Baseline \/ o = Streamifier \/ o = Prefix.
(** Two hyphens and a beginning of the name. *)
Definition abbreviates (s : str) (o : opt) : Prop := exists p q, s = lit "--" ++ p /\ p <> [] /\ full o = p ++ q.

(** A command line is a sequence of file names, clusters of letters, the last of
    which may have a value, and long options.  The value is in the same argument
    ([true]) or is the next one, whatever that looks like. *)
Inductive word :=
| File (f : str)
| Short (flags : list opt) (value : option (opt * str * bool))
| Long (spelled : str) (o : opt) (value : option (str * bool)).

Definition letters (fs : list opt) : str := flat_map letter fs.
Definition text (w : word) : list str :=
  match w with
  | File f => [f]
  | Short fs None => [lit "-" ++ letters fs]
  | Short fs (Some (o, x, true)) => [lit "-" ++ letters fs ++ letter o ++ x]
  | Short fs (Some (o, x, false)) => [lit "-" ++ letters fs ++ letter o; x]
  | Long s o None => [s]
  | Long s o (Some (x, true)) => [s ++ lit "=" ++ x]
  | Long s o (Some (x, false)) => [s; x]
  end.

Section Spec.
  Variable read_int : str -> option Z.

  Definition good (o : opt) (x : str) : Prop := o = Verbose -> exists z, read_int x = Some z.
  Definition right_word (w : word) : Prop :=
    match w with
    | File f => f = [] \/ f = lit "-" \/ hd 0 f <> 45
    | Short fs None => fs <> [] /\ Forall is_flag fs
    | Short fs (Some (o, x, attached)) => Forall is_flag fs /\ valued o /\ o <> Prefix /\ (attached = true -> x <> []) /\ good o x
    | Long s o None => abbreviates s o /\ is_flag o
    | Long s o (Some (x, _)) => abbreviates s o /\ valued o /\ good o x
    end.

  (** The options in order, with their values. *)
  Definition settings (w : word) : list (opt * option str) :=
    match w with
    | File _ => []
    | Short fs v => map (fun o => (o, None)) fs ++ match v with None => [] | Some (o, x, _) => [(o, Some x)] end
    | Long _ o v => [(o, match v with None => None | Some (x, _) => Some x end)]
    end.
  Definition files_of (w : word) : list str := match w with File f => [f] | _ => [] end.

  Definition opt_eq_dec (a b : opt) : {a = b} + {a <> b}.
  Proof. decide equality. Defined.
  Definition given (o : opt) (l : list (opt * option str)) : list str :=
    flat_map (fun '(o', x) => match x with Some x => if opt_eq_dec o' o then [x] else [] | None => [] end) l.
  Definition last_given (o : opt) (l : list (opt * option str)) (default : str) : str := last (given o l) default.

  (** What the tool is then told: flags that occur, all codecs in order, and the
      last value of every other option. *)
  Definition describes (l : list (opt * option str)) (v : values) : Prop :=
    (v_debug v = true <-> In (Debug, None) l) /\
    (v_tsv v = true <-> In (Tsv, None) l) /\
    v_codecs v = given Codec l /\
    v_streamifier v = last_given Streamifier l (lit "public_suffix") /\
    v_prefix v = last_given Prefix l [] /\
    (v_baseline v = None /\ given Baseline l = [] \/ exists a x, given Baseline l = a ++ [x] /\ v_baseline v = Some x) /\
    (v_verbose v = 0%Z /\ given Verbose l = [] \/ exists a x, given Verbose l = a ++ [x] /\ read_int x = Some (v_verbose v)).

  (** ** Proofs *)

  Definition set1 (s : opt * option str) (v : values) : option values :=
    match snd s with None => flag (fst s) v | Some x => store read_int (fst s) x v end.
  Fixpoint set_all (l : list (opt * option str)) (v : values) : option values :=
    match l with [] => Some v | s :: l => match set1 s v with None => None | Some v => set_all l v end end.
  Definition fine (s : opt * option str) : Prop := match snd s with None => is_flag (fst s) | Some x => valued (fst s) /\ good (fst s) x end.

  Lemma set_all_app a b v : set_all (a ++ b) v = match set_all a v with None => None | Some v => set_all b v end.
  Proof. revert v. induction a as [|s a IH]; intros v; cbn [app set_all]; [reflexivity|]. now destruct (set1 s v). Qed.

  Lemma set1_fine s v : fine s -> exists v', set1 s v = Some v'.
  Proof.
    destruct s as [o [x|]]; unfold fine, set1; cbn [fst snd].
    - intros [[->|[->|[->|[->| ->]]]] G]; cbn [store]; eauto. destruct (G eq_refl) as [z ->]. eauto.
    - intros [->| ->]; cbn [flag]; eauto.
  Qed.
  Lemma set_all_fine l : forall v, Forall fine l -> exists v', set_all l v = Some v'.
  Proof.
    induction l as [|s l IH]; intros v F; cbn [set_all]; [eauto|]. apply Forall_cons_iff in F. destruct F as [F1 F].
    destruct (set1_fine s v F1) as [v' ->]. auto.
  Qed.

  Lemma given_app o a b : given o (a ++ b) = given o a ++ given o b.
  Proof. apply flat_map_app. Qed.

  Lemma set_all_describes l : forall v, Forall fine l -> set_all l defaults = Some v -> describes l v.
  Proof.
    induction l as [|s l IH] using rev_ind; intros v F E.
    - injection E as <-. unfold describes. cbn. intuition discriminate.
    - apply Forall_app in F. destruct F as [F F1]. apply Forall_cons_iff in F1. destruct F1 as [F1 _]. rewrite set_all_app in E.
      destruct (set_all l defaults) as [v0|]; [|discriminate]. cbn [set_all] in E. destruct (set1 s v0) as [v1|] eqn:S; [|discriminate].
      injection E as ->. destruct (IH v0 F eq_refl) as (A & B & C & D & G & H & K). unfold describes, last_given. rewrite !given_app.
      assert (NI : forall x y, In x (l ++ [y]) <-> In x l \/ y = x) by (intros; rewrite in_app_iff; cbn [In]; tauto). rewrite !NI.
      destruct s as [o [x|]]; unfold set1, fine in *; cbn [fst snd] in *.
      + destruct F1 as [[->|[->|[->|[->| ->]]]] G1]; cbn [store] in S; [destruct (read_int x) as [z|] eqn:Z; [|discriminate]| | | |]; injection S as <-;
          cbn [v_debug v_tsv v_codecs v_streamifier v_prefix v_baseline v_verbose given flat_map opt_eq_dec opt_rec opt_rect app];
          rewrite ?app_nil_r, ?last_last; repeat split;
          try (intros Y; left; tauto); try (intros [Y|Y]; [tauto|discriminate]); try assumption; try (now rewrite C); try (right; eauto; fail).
      + destruct F1 as [->| ->]; cbn [flag] in S; injection S as <-;
          cbn [v_debug v_tsv v_codecs v_streamifier v_prefix v_baseline v_verbose given flat_map opt_eq_dec opt_rec opt_rect app];
          rewrite ?app_nil_r, ?last_last; repeat split;
          try (intros Y; left; tauto); try (intros [Y|Y]; [tauto|discriminate]); try assumption; try (intros _; right; reflexivity); auto.
  Qed.

  Lemma describes_unique l v v' : describes l v -> describes l v' -> v = v'.
  Proof.
    intros (A & B & C & D & G & H & K) (A' & B' & C' & D' & G' & H' & K'). destruct v as [a b c d e f g], v' as [a' b' c' d' e' f' g'].
    cbn [v_debug v_tsv v_codecs v_streamifier v_prefix v_baseline v_verbose] in *.
    assert (b = b') by (destruct b, b'; try reflexivity; [symmetry; tauto|tauto]).
    assert (e = e') by (destruct e, e'; try reflexivity; [symmetry; tauto|tauto]).
    assert (d = d').
    { destruct H as [[-> H]|(x & y & H & ->)], H' as [[-> H']|(x' & y' & H' & ->)]; rewrite H in H'; try reflexivity.
      - destruct x'; discriminate.
      - destruct x; discriminate.
      - apply app_inj_tail in H'. destruct H' as [_ ->]. reflexivity. }
    assert (a = a').
    { destruct K as [[-> K]|(x & y & K & Z)], K' as [[-> K']|(x' & y' & K' & Z')]; rewrite K in K'; try reflexivity.
      - destruct x'; discriminate.
      - destruct x; discriminate.
      - apply app_inj_tail in K'. destruct K' as [_ ->]. congruence. }
    congruence.
  Qed.

  (** *** Abbreviations *)

  Lemma starts_with_spec : forall p s, starts_with s p = true <-> exists q, s = p ++ q.
  Proof.
    induction p as [|x p IH]; intros s.
    - destruct s; cbn; split; intros; eauto.
    - destruct s as [|y s]; cbn [starts_with]; [split; [discriminate|intros [q E]; discriminate]|]. rewrite andb_true_iff, IH, N.eqb_eq. split.
      + intros [-> [q ->]]. now exists q.
      + intros [q E]. injection E as -> ->. eauto.
  Qed.

  Definition prefixes_ok (o : opt) : bool :=
    forallb (fun n => match match_abbrev (lit "--" ++ firstn n (full o)) with Some o' => if opt_eq_dec o' o then true else false | None => false end)
      (seq 1 (length (full o))).
  Lemma all_prefixes_ok o : prefixes_ok o = true.
  Proof. destruct o; vm_compute; reflexivity. Qed.

  Lemma match_abbreviation s o : abbreviates s o -> match_abbrev s = Some o.
  Proof.
    intros (p & q & -> & N & E). pose proof (all_prefixes_ok o) as H. unfold prefixes_ok in H. rewrite forallb_forall in H.
    specialize (H (length p)). rewrite E, firstn_app, Nat.sub_diag, firstn_all in H. cbn [firstn] in H. rewrite app_nil_r in H.
    destruct (match_abbrev (lit "--" ++ p)) as [o'|].
    - destruct (opt_eq_dec o' o) as [->|X]; [reflexivity|]. discriminate H. apply in_seq. rewrite app_length. destruct p; [contradiction|]. cbn [length]. lia.
    - discriminate H. apply in_seq. rewrite app_length. destruct p; [contradiction|]. cbn [length]. lia.
  Qed.

  Lemma long_full w o : In (w, o) long_opts -> w = lit "--" ++ full o.
  Proof. cbn [long_opts In]. intros H. repeat (destruct H as [H|H]; [injection H as <- <-; reflexivity|]). contradiction. Qed.

  Lemma match_abbrev_abbreviates s o : starts_with s (lit "--") = true -> match_abbrev s = Some o -> abbreviates s o.
  Proof.
    intros S M. apply starts_with_spec in S. destruct S as [p ->]. exists p.
    destruct p as [|c p]; [vm_compute in M; discriminate|]. unfold match_abbrev in M.
    destruct (find (fun '(w, _) => str_eqb w (lit "--" ++ c :: p)) long_opts) as [[w o']|] eqn:F.
    - injection M as ->. apply find_some in F. destruct F as [I E]. apply long_full in I. destruct (str_eqb_spec w (lit "--" ++ c :: p)) as [->|]; [|discriminate].
      apply app_inv_head in I. exists []. rewrite app_nil_r. split; [reflexivity|]. split; [discriminate|now symmetry].
    - destruct (filter (fun '(w, _) => starts_with w (lit "--" ++ c :: p)) long_opts) as [|[w o'] [|x l]] eqn:E; try discriminate. injection M as ->.
      assert (I : In (w, o) (filter (fun '(w, _) => starts_with w (lit "--" ++ c :: p)) long_opts)) by (rewrite E; now left).
      apply filter_In in I. destruct I as [I P]. apply long_full in I. subst w. apply starts_with_spec in P. destruct P as [q P].
      rewrite <- app_assoc in P. apply app_inv_head in P. exists q. split; [reflexivity|]. split; [discriminate|exact P].
  Qed.

  (** *** Clusters *)

  Lemma letter_short o : o <> Prefix -> exists c, letter o = [c] /\ short_opt c = Some o /\ c <> 45.
  Proof. destruct o; intros H; try contradiction; (eexists; split; [reflexivity|]; split; [reflexivity|discriminate]). Qed.
  Lemma short_letter c o : short_opt c = Some o -> letter o = [c] /\ o <> Prefix /\ c <> 45.
  Proof.
    unfold short_opt. repeat match goal with |- context [c =? ?k] => destruct (N.eqb_spec c k) as [->|]; [intros H; injection H as <-; repeat split; discriminate|] end.
    discriminate.
  Qed.
  Lemma flag_not_prefix o : is_flag o -> o <> Prefix /\ takes_value o = false.
  Proof. intros [->| ->]; split; (discriminate || reflexivity). Qed.
  Lemma valued_takes o : valued o <-> takes_value o = true.
  Proof. unfold valued. destruct o; cbn; intuition discriminate. Qed.

  Lemma cluster_flags fs : Forall is_flag fs -> forall rest v, exists v', set_all (map (fun o => (o, None)) fs) v = Some v' /\
    cluster (letters fs ++ rest) v = cluster rest v'.
  Proof.
    induction 1 as [|o fs F FS IH]; intros rest v; [cbn; eauto|]. cbn [letters flat_map map set_all].
    destruct (flag_not_prefix o F) as [NP TV]. destruct (letter_short o NP) as (c & EL & SO & _). rewrite EL. cbn [app cluster]. rewrite SO, TV.
    destruct (set1_fine (o, None) v F) as [v1 S]. rewrite S. unfold set1 in S. cbn [fst snd] in S. rewrite S. apply IH.
  Qed.

  Lemma cluster_inv s : forall v,
    match cluster s v with
    | Flags v' => exists fs, s = letters fs /\ Forall is_flag fs /\ set_all (map (fun o => (o, None)) fs) v = Some v'
    | Wants v' o l => exists fs, s = letters fs ++ letter o ++ l /\ Forall is_flag fs /\ set_all (map (fun o => (o, None)) fs) v = Some v' /\
        valued o /\ o <> Prefix
    | Stop _ => True
    end.
  Proof.
    induction s as [|c s IH]; intros v; cbn [cluster]; [exists []; repeat split; constructor|].
    destruct (short_opt c) as [o|] eqn:S; [|exact I]. destruct (short_letter c o S) as (EL & NP & _).
    destruct (takes_value o) eqn:T.
    - exists []. cbn [letters flat_map app map set_all]. rewrite EL. split; [reflexivity|]. split; [constructor|]. split; [reflexivity|]. split; [now apply valued_takes|exact NP].
    - destruct (flag o v) as [v1|] eqn:Fl; [|exact I]. specialize (IH v1).
      assert (Fo : is_flag o) by (destruct o; try discriminate; [now left|now right]).
      assert (SA : forall fs, set_all (map (fun o => (o, None)) (o :: fs)) v = set_all (map (fun o => (o, None)) fs) v1).
      { intros fs. cbn [map set_all]. unfold set1. cbn [fst snd]. now rewrite Fl. }
      destruct (cluster s v1) as [v'|v' o' l|]; [| |exact I].
      + destruct IH as (fs & -> & F & E). exists (o :: fs). rewrite SA. cbn [letters flat_map]. rewrite EL. split; [reflexivity|]. split; [now constructor|exact E].
      + destruct IH as (fs & -> & F & E & V). exists (o :: fs). rewrite SA. cbn [letters flat_map]. rewrite EL. split; [reflexivity|]. split; [now constructor|]. split; [exact E|exact V].
  Qed.

  (** *** One word *)

  Lemma fine_settings w : right_word w -> Forall fine (settings w).
  Proof.
    destruct w as [f|fs [[[o x] att]|]|s o [[x att]|]]; cbn [right_word settings].
    - constructor.
    - intros (F & V & _ & _ & G). apply Forall_app. split; [|constructor; [split; assumption|constructor]]. apply Forall_map. eapply Forall_impl; [|exact F]. intros a H. exact H.
    - intros (_ & F). rewrite app_nil_r. apply Forall_map. eapply Forall_impl; [|exact F]. intros a H. exact H.
    - intros (_ & V & G). constructor; [split; assumption|constructor].
    - intros (_ & F). constructor; [exact F|constructor].
  Qed.

  Lemma full_no_equals o : ~ In 61 (full o).
  Proof. destruct o; cbn; intros H; repeat (destruct H as [H|H]; [discriminate|]); contradiction. Qed.
  Lemma abbreviation s o : abbreviates s o -> ~ In 61 s /\ starts_with s (lit "--") = true /\ s <> lit "--" /\ forall r, s ++ r <> lit "--".
  Proof.
    intros (p & q & -> & N & E).
    assert (NE : forall r, (lit "--" ++ p) ++ r <> lit "--").
    { intros r H. apply (f_equal (fun l : str => length l)) in H. rewrite !app_length in H. destruct p; [contradiction|]. cbn [length] in H. change (length (lit "--")) with 2%nat in H. lia. }
    split; [|split; [|split]].
    - rewrite in_app_iff. intros [H|H]; [cbn in H; intuition discriminate|]. apply (full_no_equals o). rewrite E, in_app_iff. now left.
    - apply starts_with_spec. eauto.
    - specialize (NE []). now rewrite app_nil_r in NE.
    - exact NE.
  Qed.

  Lemma starts_with_app s p r : starts_with s p = true -> starts_with (s ++ r) p = true.
  Proof. rewrite !starts_with_spec. intros [q ->]. exists (q ++ r). now rewrite app_assoc. Qed.

  (** An argument that is a hyphen and a letter. *)
  Lemma dash_letter c t : c <> 45 -> str_eqb (lit "-" ++ c :: t) (lit "--") = false /\ starts_with (lit "-" ++ c :: t) (lit "--") = false /\
    starts_with (lit "-" ++ c :: t) (lit "-") && (1 <? lenN (lit "-" ++ c :: t)) = true.
  Proof.
    intros N. split; [|split].
    - destruct (str_eqb_spec (lit "-" ++ c :: t) (lit "--")) as [E|]; [|reflexivity]. cbv [lit] in E. cbn in E. injection E as E _. contradiction.
    - change (starts_with (45 :: c :: t) [45; 45] = false). cbn [starts_with]. rewrite N.eqb_refl. destruct (N.eqb_spec 45 c); [congruence|reflexivity].
    - apply andb_true_iff. split; [apply starts_with_spec; eauto|]. apply N.ltb_lt. unfold lenN. rewrite app_length. cbn [length]. change (length (lit "-")) with 1%nat. lia.
  Qed.

  Lemma store_good o x v : valued o -> good o x -> exists v', store read_int o x v = Some v' /\ set1 (o, Some x) v = Some v'.
  Proof. intros V G. destruct (set1_fine (o, Some x) v (conj V G)) as [v' E]. exists v'. split; exact E. Qed.

  Lemma first_letter fs o : Forall is_flag fs -> o <> Prefix -> forall r, exists c t, letters fs ++ letter o ++ r = c :: t /\ c <> 45.
  Proof.
    intros F NP r. destruct fs as [|f fs].
    - destruct (letter_short o NP) as (c & -> & _ & H). now exists c, r.
    - apply Forall_cons_iff in F. destruct F as [F _]. destruct (flag_not_prefix f F) as [NF _]. destruct (letter_short f NF) as (c & EL & _ & H).
      cbn [letters flat_map]. rewrite EL. eexists. eexists. split; [reflexivity|exact H].
  Qed.

  Lemma parse_word w rest v largs : right_word w -> exists v', set_all (settings w) v = Some v' /\
    parse_args read_int (text w ++ rest) v largs = parse_args read_int rest v' (largs ++ files_of w).
  Proof.
    destruct w as [f|fs [[[o x] att]|]|s o [[x att]|]]; cbn [right_word settings text files_of].
    - intros H. exists v. split; [reflexivity|]. cbn [app parse_args].
      destruct H as [->|[->|H]]; [reflexivity|reflexivity|].
      destruct f as [|c f]; [reflexivity|]. cbn [hd] in H.
      destruct (str_eqb_spec (c :: f) (lit "--")) as [E|_]; [injection E as -> _; contradiction|].
      change (starts_with (c :: f) (lit "--")) with ((45 =? c) && starts_with f [45]). change (starts_with (c :: f) (lit "-")) with ((45 =? c) && starts_with f []).
      destruct (N.eqb_spec 45 c); [congruence|]. reflexivity.
    - intros (F & V & NP & AT & G). destruct (cluster_flags fs F [] v) as (v1 & E1 & _). rewrite set_all_app, E1. cbn [set_all].
      destruct (store_good o x v1 V G) as (v2 & ES & E2). rewrite E2. exists v2. split; [reflexivity|]. rewrite app_nil_r.
      destruct (letter_short o NP) as (lc & EL & SO & _). apply valued_takes in V.
      assert (CL : forall r, cluster (letters fs ++ letter o ++ r) v = Wants v1 o r).
      { intros r. destruct (cluster_flags fs F (letter o ++ r) v) as (v1' & E1' & ->). rewrite E1 in E1'. injection E1' as <-.
        rewrite EL. cbn [app cluster]. now rewrite SO, V. }
      destruct att; cbn [app].
      + destruct (first_letter fs o F NP x) as (c & t & E & N). cbn [parse_args]. specialize (CL x). rewrite E in *.
        destruct (dash_letter c t N) as (-> & -> & ->). change (tl (lit "-" ++ c :: t)) with (c :: t). rewrite CL.
        destruct x as [|x0 x]; [now specialize (AT eq_refl)|]. now rewrite ES.
      + destruct (first_letter fs o F NP []) as (c & t & E & N). cbn [parse_args]. specialize (CL []). rewrite app_nil_r in *. rewrite E in *.
        destruct (dash_letter c t N) as (-> & -> & ->). change (tl (lit "-" ++ c :: t)) with (c :: t). rewrite CL. now rewrite ES.
    - intros (NE & F). destruct (cluster_flags fs F [] v) as (v1 & E1 & C). rewrite app_nil_r in C. rewrite app_nil_r, E1. exists v1. split; [reflexivity|].
      cbn [app parse_args]. destruct fs as [|f fs]; [contradiction|]. apply Forall_cons_iff in F. destruct F as [F _].
      destruct (flag_not_prefix f F) as [NF _]. destruct (letter_short f NF) as (c & EL & _ & H).
      assert (EE : letters (f :: fs) = c :: letters fs) by (cbn [letters flat_map]; now rewrite EL). rewrite EE in *.
      destruct (dash_letter c (letters fs) H) as (-> & -> & ->). change (tl (lit "-" ++ c :: letters fs)) with (c :: letters fs). rewrite C. cbn [cluster].
      now rewrite app_nil_r.
    - intros (AB & V & G). destruct (store_good o x v V G) as (v2 & ES & E2). cbn [set_all]. rewrite E2. exists v2. split; [reflexivity|].
      rewrite app_nil_r. apply valued_takes in V. destruct (abbreviation s o AB) as (NEQ & SW & NS & NA). pose proof (match_abbreviation s o AB) as M.
      destruct att; cbn [app parse_args].
      + destruct (str_eqb_spec (s ++ lit "=" ++ x) (lit "--")) as [K|_]; [now apply NA in K|]. rewrite (starts_with_app _ _ _ SW).
        change (lit "=" ++ x) with (61 :: x). rewrite (split_once_app 61 s x NEQ), M, V, ES. reflexivity.
      + destruct (str_eqb_spec s (lit "--")) as [K|_]; [contradiction|]. rewrite SW, (split_once_none 61 s NEQ), M, V, ES. reflexivity.
    - intros (AB & F). destruct (set1_fine (o, None) v F) as [v1 S]. cbn [set_all]. rewrite S. exists v1. split; [reflexivity|].
      rewrite app_nil_r. destruct (flag_not_prefix o F) as [_ TV]. destruct (abbreviation s o AB) as (NEQ & SW & NS & NA).
      cbn [app parse_args]. destruct (str_eqb_spec s (lit "--")) as [K|_]; [contradiction|].
      rewrite SW, (split_once_none 61 s NEQ), (match_abbreviation s o AB), TV. unfold set1 in S. cbn [fst snd] in S. now rewrite S.
  Qed.

  Lemma parse_words ws : Forall right_word ws -> forall rest v largs, exists v', set_all (flat_map settings ws) v = Some v' /\
    parse_args read_int (flat_map text ws ++ rest) v largs = parse_args read_int rest v' (largs ++ flat_map files_of ws).
  Proof.
    induction 1 as [|w ws W WS IH]; intros rest v largs; cbn [flat_map app].
    - exists v. now rewrite app_nil_r.
    - destruct (parse_word w (flat_map text ws ++ rest) v largs W) as (v1 & E1 & P1).
      destruct (IH rest v1 (largs ++ files_of w)) as (v2 & E2 & P2). exists v2. rewrite set_all_app, E1. split; [exact E2|].
      rewrite <- app_assoc, P1, P2. now rewrite app_assoc.
  Qed.

  (** *** The other way *)

  Definition understood (argv : list str) (v : values) (largs : list str) (v' : values) (files : list str) : Prop :=
    exists ws tail, argv = flat_map text ws ++ tail /\ Forall right_word ws /\ set_all (flat_map settings ws) v = Some v' /\
      (tail = [] /\ files = largs ++ flat_map files_of ws \/ exists r, tail = lit "--" :: r /\ files = largs ++ flat_map files_of ws ++ r).

  Lemma understood_word w rest v v1 largs v' files : right_word w -> set_all (settings w) v = Some v1 ->
    understood rest v1 (largs ++ files_of w) v' files -> understood (text w ++ rest) v largs v' files.
  Proof.
    intros W E (ws & tail & -> & F & S & T). exists (w :: ws), tail. cbn [flat_map]. rewrite set_all_app, E, <- !app_assoc.
    split; [reflexivity|]. split; [now constructor|]. split; [exact S|].
    destruct T as [[-> ->]|(r & -> & ->)]; [left|right; exists r]; rewrite <- ?app_assoc; auto.
  Qed.

  Lemma store_fine o x v v1 : valued o -> store read_int o x v = Some v1 -> good o x /\ set1 (o, Some x) v = Some v1.
  Proof. intros V E. split; [|exact E]. intros ->. cbn [store] in E. destruct (read_int x); [eauto|discriminate]. Qed.

  Lemma parse_understood n : forall argv, (length argv <= n)%nat -> forall v largs v' files,
    parse_args read_int argv v largs = Parsed v' files -> understood argv v largs v' files.
  Proof.
    induction n as [|n IH]; intros argv L v largs v' files; (destruct argv as [|a rest];
      [intros H; injection H as <- <-; exists [], []; cbn [flat_map set_all app];
       split; [reflexivity|]; split; [constructor|]; split; [reflexivity|]; left; now rewrite app_nil_r|]); cbn [length] in L; [lia|].
    cbn [parse_args]. destruct (str_eqb_spec a (lit "--")) as [->|ND].
    { intros H. injection H as <- <-. exists [], (lit "--" :: rest). cbn. repeat split; auto. right. now exists rest. }
    destruct (starts_with a (lit "--")) eqn:SW.
    - destruct (split_once 61 a) as [name att] eqn:SO. pose proof (split_once_spec 61 a) as SP. rewrite SO in SP.
      destruct (match_abbrev name) as [o|] eqn:M; [|discriminate].
      assert (SN : starts_with name (lit "--") = true).
      { destruct att as [x|]; destruct SP as [SP NI]; [|now rewrite SP].
        apply starts_with_spec in SW. destruct SW as [q SW]. rewrite SP in SW. apply starts_with_spec.
        destruct name as [|n1 [|n2 nm]]; cbv [lit] in SW; cbn in SW; [discriminate|injection SW as _ SW; discriminate|].
        injection SW as -> -> SW. now exists nm. }
      pose proof (match_abbrev_abbreviates name o SN M) as AB.
      destruct (takes_value o) eqn:T.
      + apply valued_takes in T. destruct att as [x|]; destruct SP as [SP NI].
        * destruct (store read_int o x v) as [v1|] eqn:S; [|discriminate]. intros H. apply IH in H; [|lia].
          destruct (store_fine o x v v1 T S) as [G S1]. subst a.
          apply (understood_word (Long name o (Some (x, true))) rest v v1); [now repeat split|cbn [settings set_all]; now rewrite S1|].
          cbn [files_of]. now rewrite app_nil_r.
        * destruct rest as [|x rest]; [discriminate|]. destruct (store read_int o x v) as [v1|] eqn:S; [|discriminate]. intros H.
          apply IH in H; [|cbn [length] in L; lia]. destruct (store_fine o x v v1 T S) as [G S1]. subst name.
          apply (understood_word (Long a o (Some (x, false))) rest v v1); [now repeat split|cbn [settings set_all]; now rewrite S1|].
          cbn [files_of]. now rewrite app_nil_r.
      + destruct att as [x|]; [discriminate|]. destruct SP as [SP NI]. destruct (flag o v) as [v1|] eqn:F; [|discriminate]. intros H.
        apply IH in H; [|lia]. subst name. assert (Fo : is_flag o) by (destruct o; try discriminate; [now left|now right]).
        apply (understood_word (Long a o None) rest v v1); [now split|cbn [settings set_all]; unfold set1; cbn [fst snd]; now rewrite F|].
        cbn [files_of]. now rewrite app_nil_r.
    - destruct (starts_with a (lit "-") && (1 <? lenN a)) eqn:SH.
      + apply andb_true_iff in SH. destruct SH as [SD LN]. apply starts_with_spec in SD. destruct SD as [t ->]. apply N.ltb_lt in LN.
        change (tl (lit "-" ++ t)) with t. assert (NT : t <> []) by (intros ->; cbn in LN; lia).
        pose proof (cluster_inv t v) as CI. destruct (cluster t v) as [v1|v1 o x|c]; [| |discriminate].
        * destruct CI as (fs & -> & F & S). intros H. apply IH in H; [|lia].
          apply (understood_word (Short fs None) rest v v1); [split; [now intros ->|exact F]|cbn [settings]; now rewrite app_nil_r|].
          cbn [files_of]. now rewrite app_nil_r.
        * destruct CI as (fs & -> & F & S & V & NP). destruct x as [|x0 x].
          { destruct rest as [|y rest]; [discriminate|]. destruct (store read_int o y v1) as [v2|] eqn:ST; [|discriminate]. intros H.
            apply IH in H; [|cbn [length] in L; lia]. destruct (store_fine o y v1 v2 V ST) as [G S1]. rewrite app_nil_r.
            apply (understood_word (Short fs (Some (o, y, false))) rest v v2); [now repeat split|cbn [settings]; rewrite set_all_app, S; cbn [set_all]; now rewrite S1|].
            cbn [files_of]. now rewrite app_nil_r. }
          { destruct (store read_int o (x0 :: x) v1) as [v2|] eqn:ST; [|discriminate]. intros H. apply IH in H; [|lia].
            destruct (store_fine o _ v1 v2 V ST) as [G S1].
            apply (understood_word (Short fs (Some (o, x0 :: x, true))) rest v v2); [repeat split; try assumption; discriminate|cbn [settings]; rewrite set_all_app, S; cbn [set_all]; now rewrite S1|].
            cbn [files_of]. now rewrite app_nil_r. }
      + intros H. apply IH in H; [|lia]. apply (understood_word (File a) rest v v); [|reflexivity|exact H].
        cbn [right_word]. destruct a as [|c a]; [now left|]. right. cbn [hd]. destruct (N.eq_dec c 45) as [->|NC]; [|now right]. left.
        destruct a as [|c2 a]; [reflexivity|]. exfalso. change (lit "-") with [45] in SH. cbn [starts_with] in SH. rewrite N.eqb_refl in SH. cbn [andb] in SH.
        apply N.ltb_ge in SH. unfold lenN in SH. cbn [length] in SH. lia.
  Qed.

  Lemma fine_all ws : Forall right_word ws -> Forall fine (flat_map settings ws).
  Proof. induction 1 as [|w ws W WS IH]; cbn [flat_map]; [constructor|]. apply Forall_app. split; [now apply fine_settings|exact IH]. Qed.

  (** ** C107 *)

  (** The tool accepts exactly the command lines that are made of such words, with
      "--" before file names if one likes, and is told what they describe. *)
Theorem C107_command_line : forall argv v files,
    parse_options read_int argv = Parsed v files <->
    exists ws tail, argv = flat_map text ws ++ tail /\ Forall right_word ws /\ describes (flat_map settings ws) v /\
      (tail = [] /\ files = flat_map files_of ws \/ exists r, tail = lit "--" :: r /\ files = flat_map files_of ws ++ r).
  Proof.
    intros argv v files. split.
    - intros H. apply (parse_understood (length argv)) in H; [|lia]. destruct H as (ws & tail & E & F & S & T). exists ws, tail.
      split; [exact E|]. split; [exact F|]. split; [|exact T]. apply set_all_describes; [now apply fine_all|exact S].
    - intros (ws & tail & -> & F & D & T). unfold parse_options. destruct (parse_words ws F tail defaults []) as (v1 & S & ->).
      assert (v1 = v) by (apply (describes_unique (flat_map settings ws)); [apply set_all_describes; [now apply fine_all|exact S]|exact D]). subst v1.
      destruct T as [[-> ->]|(r & -> & ->)]; reflexivity.
  Qed.

  (** Every choice of codecs, baseline, streamifier, prefix, flags and verbosity
      and every list of file names has a command line. *)
Theorem C107_everything_can_be_said : forall v files x, read_int x = Some (v_verbose v) ->
    exists argv, parse_options read_int argv = Parsed v files.
  Proof.
    intros [vb db cs bl ts st pf] files x R. cbn [v_verbose] in R.
    set (ws := (if db then [Short [Debug] None] else []) ++ (if ts then [Short [Tsv] None] else []) ++
               map (fun c => Short [] (Some (Codec, c, false))) cs ++
               match bl with Some b => [Short [] (Some (Baseline, b, false))] | None => [] end ++
               [Short [] (Some (Streamifier, st, false)); Long (lit "--prefix") Prefix (Some (pf, false)); Short [] (Some (Verbose, x, false))]).
    exists (flat_map text ws ++ lit "--" :: files). apply C107_command_line. exists ws, (lit "--" :: files). split; [reflexivity|].
    assert (GC : forall o l, given o (flat_map settings (map (fun c => Short [] (Some (Codec, c, false))) l)) = if opt_eq_dec Codec o then l else []).
    { intros o l. induction l as [|c l IH]; cbn [map flat_map settings app given]; [now destruct (opt_eq_dec Codec o)|].
      unfold given in IH. rewrite IH. now destruct (opt_eq_dec Codec o). }
    assert (GF : forall o l, In (o, None) (flat_map settings (map (fun c => Short [] (Some (Codec, c, false))) l)) -> False).
    { intros o l. induction l as [|c l IH]; cbn [map flat_map settings app In]; [auto|]. intros [H|H]; [discriminate|auto]. }
    split; [|split].
    - assert (RV : forall o y, valued o -> o <> Prefix -> good o y -> right_word (Short [] (Some (o, y, false)))).
      { intros o y V NP G. split; [constructor|]. split; [exact V|]. split; [exact NP|]. split; [discriminate|exact G]. }
      assert (RF : forall o, is_flag o -> right_word (Short [o] None)) by (intros o F; split; [discriminate|now constructor]).
      unfold ws. repeat (apply Forall_app; split).
      + destruct db; constructor; [|constructor]. apply RF. now left.
      + destruct ts; constructor; [|constructor]. apply RF. now right.
      + apply Forall_map. apply Forall_forall. intros c _. apply RV; [unfold valued; auto|discriminate|intros K; discriminate].
      + destruct bl as [b|]; constructor; [|constructor]. apply RV; [unfold valued; auto|discriminate|intros K; discriminate].
      + constructor; [|constructor; [|constructor; [|constructor]]].
        * apply RV; [unfold valued; auto|discriminate|intros K; discriminate].
        * split; [exists (lit "prefix"), []; split; [reflexivity|split; [discriminate|reflexivity]]|]. split; [unfold valued; tauto|intros K; discriminate].
        * apply RV; [unfold valued; auto|discriminate|intros _; eauto].
    - unfold ws, describes, last_given. rewrite !flat_map_app, !given_app, !GC, !in_app_iff.
      cbn [v_debug v_tsv v_codecs v_streamifier v_prefix v_baseline v_verbose].
      destruct db, ts, bl as [b|]; cbn; rewrite ?app_nil_r; repeat split; auto;
        try (intros _; tauto); try discriminate;
        try (right; exists [], x; split; [reflexivity|exact R]); try (right; exists [], b; split; reflexivity);
        try (intros K; repeat (destruct K as [K|K]; try discriminate; try contradiction); now apply GF in K).
    - right. exists files. split; [reflexivity|].
      assert (FO : flat_map files_of ws = []).
      { unfold ws. rewrite !flat_map_app. replace (flat_map files_of (map _ cs)) with (@nil str) by (induction cs; [reflexivity|assumption]).
        destruct db, ts, bl; reflexivity. }
      now rewrite FO.
  Qed.

  (** *** Where it stops *)

  (** The argument asks for help: "--help" or a beginning of it, or flags and then h. *)
  Definition asks_help (a : str) : Prop :=
    abbreviates a Help \/ exists fs r, Forall is_flag fs /\ a = lit "-" ++ letters fs ++ lit "h" ++ r.

  Lemma cluster_stop s : forall v c, cluster s v = Stop c ->
    c = 2 \/ c = 0 /\ exists fs r, Forall is_flag fs /\ s = letters fs ++ lit "h" ++ r.
  Proof.
    induction s as [|a s IH]; intros v c; cbn [cluster]; [discriminate|].
    destruct (short_opt a) as [o|] eqn:S; [|intros [= <-]; now left]. destruct (short_letter a o S) as (EL & _ & _).
    destruct (takes_value o) eqn:T; [discriminate|]. destruct (flag o v) as [v1|] eqn:F.
    - intros H. apply IH in H. destruct H as [->|(-> & fs & r & FF & ->)]; [now left|]. right. split; [reflexivity|].
      exists (o :: fs), r. split; [constructor; [destruct o; try discriminate; [now left|now right]|exact FF]|].
      cbn [letters flat_map]. now rewrite EL.
    - intros [= <-]. right. split; [reflexivity|]. exists [], s. split; [constructor|]. destruct o; try discriminate. cbn [letter] in EL. now rewrite EL.
  Qed.

  Lemma parse_exit n : forall argv, (length argv <= n)%nat -> forall v largs c, parse_args read_int argv v largs = Exit c ->
    c = 2 \/ c = 0 /\ exists ws a rest, argv = flat_map text ws ++ a :: rest /\ Forall right_word ws /\ asks_help a.
  Proof.
    induction n as [|n IH]; intros argv L v largs c; (destruct argv as [|a rest]; [discriminate|]); cbn [length] in L; [lia|].
    assert (ST : forall w rest' v1 largs', right_word w -> a :: rest = text w ++ rest' -> (length rest' <= n)%nat ->
       parse_args read_int rest' v1 largs' = Exit c ->
       c = 2 \/ c = 0 /\ exists ws a0 rest0, a :: rest = flat_map text ws ++ a0 :: rest0 /\ Forall right_word ws /\ asks_help a0).
    { intros w rest' v1 largs' W E L' H. apply IH in H; [|exact L']. destruct H as [->|(-> & ws & b & r & -> & F & A)]; [now left|]. right. split; [reflexivity|].
      exists (w :: ws), b, r. cbn [flat_map]. rewrite E, app_assoc. split; [reflexivity|]. split; [now constructor|exact A]. }
    assert (HE : asks_help a -> 0 = 2 \/ 0 = 0 /\ exists ws a0 rest0, a :: rest = flat_map text ws ++ a0 :: rest0 /\ Forall right_word ws /\ asks_help a0).
    { intros A. right. split; [reflexivity|]. exists [], a, rest. split; [reflexivity|]. split; [constructor|exact A]. }
    cbn [parse_args]. destruct (str_eqb_spec a (lit "--")) as [->|ND]; [discriminate|].
    destruct (starts_with a (lit "--")) eqn:SW.
    - destruct (split_once 61 a) as [name att] eqn:SO. pose proof (split_once_spec 61 a) as SP. rewrite SO in SP.
      destruct (match_abbrev name) as [o|] eqn:M; [|intros [= <-]; now left].
      assert (SN : starts_with name (lit "--") = true).
      { destruct att as [x|]; destruct SP as [SP NI]; [|now rewrite SP].
        apply starts_with_spec in SW. destruct SW as [q SW]. rewrite SP in SW. apply starts_with_spec.
        destruct name as [|n1 [|n2 nm]]; cbv [lit] in SW; cbn in SW; [discriminate|injection SW as _ SW; discriminate|].
        injection SW as -> -> SW. now exists nm. }
      pose proof (match_abbrev_abbreviates name o SN M) as AB.
      destruct (takes_value o) eqn:T.
      + apply valued_takes in T. destruct att as [x|]; destruct SP as [SP NI].
        * destruct (store read_int o x v) as [v1|] eqn:S; [|intros [= <-]; now left]. intros H.
          destruct (store_fine o x v v1 T S) as [G S1].
          apply (ST (Long name o (Some (x, true))) rest v1 largs); [now repeat split|cbn [text app]; now rewrite SP|lia|exact H].
        * destruct rest as [|x rest]; [intros [= <-]; now left|]. destruct (store read_int o x v) as [v1|] eqn:S; [|intros [= <-]; now left]. intros H.
          destruct (store_fine o x v v1 T S) as [G S1]. subst name.
          apply (ST (Long a o (Some (x, false))) rest v1 largs); [now repeat split|reflexivity|cbn [length] in L; lia|exact H].
      + destruct att as [x|]; [intros [= <-]; now left|]. destruct SP as [SP NI]. subst name. destruct (flag o v) as [v1|] eqn:F.
        * intros H. assert (Fo : is_flag o) by (destruct o; try discriminate; [now left|now right]).
          apply (ST (Long a o None) rest v1 largs); [now split|reflexivity|lia|exact H].
        * intros [= <-]. apply HE. left. destruct o; try discriminate. exact AB.
    - destruct (starts_with a (lit "-") && (1 <? lenN a)) eqn:SH.
      + apply andb_true_iff in SH. destruct SH as [SD LN]. apply starts_with_spec in SD. destruct SD as [t ->]. apply N.ltb_lt in LN.
        change (tl (lit "-" ++ t)) with t. assert (NT : t <> []) by (intros ->; cbn in LN; lia).
        pose proof (cluster_inv t v) as CI. destruct (cluster t v) as [v1|v1 o x|k] eqn:CL.
        * destruct CI as (fs & -> & F & S). intros H.
          apply (ST (Short fs None) rest v1 largs); [split; [now intros ->|exact F]|reflexivity|lia|exact H].
        * destruct CI as (fs & -> & F & S & V & NP). destruct x as [|x0 x].
          { destruct rest as [|y rest]; [intros [= <-]; now left|]. destruct (store read_int o y v1) as [v2|] eqn:SS; [|intros [= <-]; now left]. intros H.
            destruct (store_fine o y v1 v2 V SS) as [G S1].
            apply (ST (Short fs (Some (o, y, false))) rest v2 largs); [now repeat split|cbn [text]; now rewrite app_nil_r|cbn [length] in L; lia|exact H]. }
          { destruct (store read_int o (x0 :: x) v1) as [v2|] eqn:SS; [|intros [= <-]; now left]. intros H.
            destruct (store_fine o _ v1 v2 V SS) as [G S1].
            apply (ST (Short fs (Some (o, x0 :: x, true))) rest v2 largs); [repeat split; try assumption; discriminate|reflexivity|lia|exact H]. }
        * intros [= <-]. apply cluster_stop in CL. destruct CL as [->|(-> & fs & r & F & ->)]; [now left|]. apply HE. right. now exists fs, r.
      + intros H. apply (ST (File a) rest v (largs ++ [a])); [|reflexivity|lia|exact H].
        cbn [right_word]. destruct a as [|c2 a]; [now left|]. right. cbn [hd]. destruct (N.eq_dec c2 45) as [->|NC]; [|now right]. left.
        destruct a as [|c3 a]; [reflexivity|]. exfalso. change (lit "-") with [45] in SH. cbn [starts_with] in SH. rewrite N.eqb_refl in SH. cbn [andb] in SH.
        apply N.ltb_ge in SH. unfold lenN in SH. cbn [length] in SH. lia.
  Qed.

  Lemma help_exits a rest v largs : asks_help a -> parse_args read_int (a :: rest) v largs = Exit 0.
  Proof.
    intros [A|(fs & r & F & ->)]; cbn [parse_args].
    - destruct (abbreviation a Help A) as (NEQ & SW & NS & _). pose proof (match_abbreviation a Help A) as M.
      destruct (str_eqb_spec a (lit "--")); [contradiction|]. rewrite SW. rewrite split_once_none by exact NEQ. rewrite M. reflexivity.
    - destruct (first_letter fs Help F ltac:(discriminate) r) as (c & t & E & NC). change (lit "h") with (letter Help). rewrite E.
      destruct (dash_letter c t NC) as (-> & -> & ->). change (tl (lit "-" ++ c :: t)) with (c :: t). rewrite <- E.
      destruct (cluster_flags fs F (letter Help ++ r) v) as (v1 & _ & ->). reflexivity.
  Qed.

  (** Every other command line ends the program: with status 0 exactly if, after
      such words, help is asked for; with status 2 otherwise. *)
Theorem C107_ends : forall argv c, parse_options read_int argv = Exit c ->
    c = 0 /\ (exists ws a rest, argv = flat_map text ws ++ a :: rest /\ Forall right_word ws /\ asks_help a) \/
    c = 2 /\ ~ (exists ws a rest, argv = flat_map text ws ++ a :: rest /\ Forall right_word ws /\ asks_help a).
  Proof.
    intros argv c H.
    assert (K : (exists ws a rest, argv = flat_map text ws ++ a :: rest /\ Forall right_word ws /\ asks_help a) -> c = 0).
    { intros (ws & a & rest & -> & F & A). unfold parse_options in H. destruct (parse_words ws F (a :: rest) defaults []) as (v1 & _ & E).
      rewrite E, (help_exits a rest _ _ A) in H. now injection H as <-. }
    pose proof H as P. apply (parse_exit (length argv)) in P; [|lia]. destruct P as [->|[-> P]]; [|left; now split].
    right. split; [reflexivity|]. intros Q. now apply K in Q.
  Qed.
End Spec.

Print Assumptions C107_command_line.
Print Assumptions C107_everything_can_be_said.
Print Assumptions C107_ends.

(** An integer without sign, enough for the examples. *)
Definition read_digit (s : str) : option Z :=
  match s with [c] => if (48 <=? c) && (c <=? 57) then Some (Z.of_N (c - 48)) else None | _ => None end.

(** A value is whatever comes next: with "-c -d" the codec is "-d" and debugging
    is off, and "--" is not the end of the options there. *)
Theorem C107_values_are_not_options_refuted : exists argv v files,
  In (lit "-d") argv /\ In (lit "--") argv /\ parse_options read_digit argv = Parsed v files /\
  v_debug v = false /\ v_codecs v = [lit "-d"] /\ v_baseline v = Some (lit "--") /\ files = [lit "x.har"].
Proof.
  exists [lit "-c"; lit "-d"; lit "-b"; lit "--"; lit "x.har"], (mk_values 0 false [lit "-d"] (Some (lit "--")) false (lit "public_suffix") []), [lit "x.har"].
  split; [cbn; auto|]. split; [cbn; auto 10|]. repeat split; vm_compute; reflexivity.
Qed.
Print Assumptions C107_values_are_not_options_refuted.

Example C107_line :
  parse_options read_digit [lit "-dtc"; lit "http1"; lit "a.har"; lit "--cod=delta2=x=y"; lit "-v2"; lit "--stream"; lit "hostname"; lit "-"; lit "-bhttp1"; lit "-v"; lit "3"; lit "--"; lit "-c"] =
  Parsed (mk_values 3 true [lit "http1"; lit "delta2=x=y"] (Some (lit "http1")) true (lit "hostname") []) [lit "a.har"; lit "-"; lit "-c"].
Proof. vm_compute. reflexivity. Qed.
Example C107_words :
  let ws := [Short [Debug; Tsv] (Some (Codec, lit "http1", false)); File (lit "a.har"); Long (lit "--cod") Codec (Some (lit "delta2=x=y", true)); Short [] (Some (Verbose, lit "2", true))] in
  flat_map text ws = [lit "-dtc"; lit "http1"; lit "a.har"; lit "--cod=delta2=x=y"; lit "-v2"] /\ Forall (right_word read_digit) ws.
Proof.
  cbv zeta. split; [reflexivity|]. constructor; [|constructor; [|constructor; [|constructor; [|constructor]]]]; cbn [right_word].
  - split; [constructor; [now left|constructor; [now right|constructor]]|]. split; [unfold valued; auto|]. split; [discriminate|]. split; [discriminate|intros K; discriminate].
  - right. right. discriminate.
  - split; [exists (lit "cod"), (lit "ec"); split; [reflexivity|split; [discriminate|reflexivity]]|]. split; [unfold valued; auto|intros K; discriminate].
  - split; [constructor|]. split; [unfold valued; auto|]. split; [discriminate|]. split; [discriminate|intros _; exists 2%Z; reflexivity].
Qed.
Example C107_wrong :
  map (parse_options read_digit) [[lit "-x"]; [lit "-v"; lit "high"]; [lit "a.har"; lit "-c"]; [lit "--debug=1"]; [lit "--he"]; [lit "-tdhx"]; [lit "-c"; lit "-h"; lit "-z"]] =
  [Exit 2; Exit 2; Exit 2; Exit 2; Exit 0; Exit 0; Exit 2].
Proof. vm_compute. reflexivity. Qed.
