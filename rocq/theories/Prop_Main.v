(** * Property C108: the program as a whole. *)
From Coq Require Import String List NArith ZArith Bool Arith Lia Permutation.
From Verif Require Import PyBase Lib_Model Lib_Proofs Prop_Lib Run_Model Run_Proofs Run_Report Prop_Run Cmd_Model Prop_Cmd Main_Model PyStr.
Import ListNotations.
Open Scope N_scope.
Open Scope py_scope.

(** ** Specification *)

(** The command line consists of options [l] and file names [files] (C107). *)
Definition says (read_int : str -> option Z) (argv : list str) (l : list (opt * option str)) (files : list str) : Prop :=
  exists ws tail, argv = flat_map text ws ++ tail /\ Forall (right_word read_int) ws /\ l = flat_map settings ws /\
    (tail = [] /\ files = flat_map files_of ws \/ exists r, tail = lit "--" :: r /\ files = flat_map files_of ws ++ r).

(** A file that is a HAR object every used entry of which can be understood, and
    its exchanges. *)
Definition readable (disk : str -> on_disk) (urlsplit : str -> res (str * str * str)) (f : str) (xs : list exchange) : Prop :=
  exists es reqs ress, disk f = Har es /\ har2hdrs urlsplit es = Ok (reqs, ress) /\ xs = combine reqs ress.

Definition chosen (psl : option (str -> str)) (name : str) (s : list exchange -> res (list stream_desc)) : Prop :=
  name = lit "host" /\ s = streamify_host \/ name = lit "all_one" /\ s = streamify_all_one \/
  name = lit "public_suffix" /\ exists p, psl = Some p /\ s = streamify_public_suffix p.

Definition open_and_close (f : str) : list event := [Opened f; Closed f].

(** Every file that is opened is closed before anything else is, and standard
    output is written to only after that. *)
Inductive tidy : list event -> Prop :=
| tidy_nil : tidy []
| tidy_end : tidy [Processing]
| tidy_file f l : tidy l -> tidy (Opened f :: Closed f :: l)
| tidy_told f t l : tidy l -> tidy (Opened f :: Told t :: Closed f :: l).

(** What is wrong with a file. *)
Definition wrong (disk : str -> on_disk) (urlsplit : str -> res (str * str * str)) (f : str) (ev : list event) (e : failure) : Prop :=
  disk f = Missing /\ ev = [] /\ e = IOErr \/
  disk f = Unparsable /\ ev = [Opened f; Told (lit "Unable to parse " ++ f ++ [10; 10]); Closed f] /\ e = Exc TypeError \/
  (exists x, disk f = Misshapen x /\ ev = open_and_close f /\ e = Exc x) \/
  (exists es x, disk f = Har es /\ har2hdrs urlsplit es = Err x /\ ev = open_and_close f /\ e = Exc x).

(** Two words that do not both name files and do not both give a value to the
    same option. *)
Definition valued_in (w : word) (o : opt) : Prop := exists x, In (o, Some x) (settings w).
Definition unrelated (w1 w2 : word) : Prop :=
  (files_of w1 = [] \/ files_of w2 = []) /\ forall o, ~ (valued_in w1 o /\ valued_in w2 o).

(** ** Proofs *)

Lemma says_parsed read_int argv l files v : says read_int argv l files -> describes read_int l v -> parse_options read_int argv = Parsed v files.
Proof. intros (ws & tail & E & F & -> & T) D. apply C107_command_line. exists ws, tail. auto. Qed.
Lemma parsed_says read_int argv v files : parse_options read_int argv = Parsed v files -> exists l, says read_int argv l files /\ describes read_int l v.
Proof. intros H. apply C107_command_line in H. destruct H as (ws & tail & E & F & D & T). exists (flat_map settings ws). split; [exists ws, tail; auto|exact D]. Qed.

Lemma run_finish St construct pc pd ord streamify o files :
  run St construct pc pd ord streamify o files =
  let* procs := construct_all St construct (names_of o) in
  let* ss := all_sessions streamify files in
  finish St construct pc pd ord o procs ss.
Proof. reflexivity. Qed.

Lemma load_chosen psl other name s : load_streamifier psl other name = inr s <-> chosen psl name s.
Proof.
  unfold load_streamifier, chosen. destruct (str_eqb_spec name (lit "host")) as [->|N1].
  { split; [intros [= <-]; auto|]. intros [[_ ->]|[[H _]|[H _]]]; [reflexivity|discriminate|discriminate]. }
  destruct (str_eqb_spec name (lit "all_one")) as [->|N2].
  { split; [intros [= <-]; auto|]. intros [[H _]|[[_ ->]|[H _]]]; [discriminate|reflexivity|discriminate]. }
  destruct (str_eqb_spec name (lit "public_suffix")) as [->|N3].
  { destruct psl as [p|]; split.
    - intros [= <-]. right. right. split; [reflexivity|]. now exists p.
    - intros [[H _]|[[H _]|(_ & q & [= <-] & ->)]]; [discriminate|discriminate|reflexivity].
    - discriminate.
    - intros [[H _]|[[H _]|(_ & q & H & _)]]; discriminate. }
  split; [discriminate|]. intros [[H _]|[[H _]|[H _]]]; contradiction.
Qed.

(** Requests of a HAR file have a host, so every streamifier can sort them. *)
Lemma har_hosts urlsplit es reqs ress : har2hdrs urlsplit es = Ok (reqs, ress) ->
  Forall (fun x : exchange => dget (fst x) (lit ":host") <> None) (combine reqs ress).
Proof.
  intros H. apply C40_url_always_overrides_host_header in H. destruct H as (used & _ & F).
  revert ress. induction F as [|rq e reqs used E F IH]; intros [|rs ress]; cbn [combine]; constructor; [|apply IH].
  cbn [fst]. now rewrite E.
Qed.

Lemma chosen_total psl name s xs : chosen psl name s -> Forall (fun x : exchange => dget (fst x) (lit ":host") <> None) xs -> exists ss, s xs = Ok ss.
Proof.
  intros C F. assert (A : all_hosts [xs]) by (constructor; [exact F|constructor]).
  assert (K : forall st ss, all_sessions st [xs] = Ok ss -> exists ss', st xs = Ok ss').
  { intros st ss H. cbn [all_sessions] in H. apply bind_ok in H as (s1 & E & _). eauto. }
  destruct C as [[_ ->]|[[_ ->]|(_ & p & _ & ->)]].
  - destruct (grouped_sessions (fun h => strip is_space (lower h)) (fun h => strip is_space (lower h)) [xs] A) as (ss & E & _). exact (K _ ss E).
  - destruct (all_one_sessions [xs] A) as (ss & E & _). exact (K _ ss E).
  - destruct (grouped_sessions (fun h => p (fst (split_once 58 h))) (fun h => h) [xs] A) as (ss & E & _). exact (K _ ss E).
Qed.

Section Proofs.
  Variable disk : str -> on_disk.
  Variable urlsplit : str -> res (str * str * str).
  Variable psl : option (str -> str).
  Variable other_streamifier : str -> exn.
  Variable read_int : str -> option Z.
  Variable St : Type.
  Variable construct : str -> bool -> list str -> res St.
  Variable p_compress : str -> St -> hdict -> str -> res (St * str).
  Variable p_decompress : str -> St -> str -> res (St * option hdict).
  Variable ord : list (str * str) -> list (str * str).
  Notation program := (program disk urlsplit psl other_streamifier read_int St construct p_compress p_decompress ord).
  Notation read_all := (read_all disk urlsplit).
  Notation readable := (readable disk urlsplit).
  Notation wrong := (wrong disk urlsplit).
  Notation run := (run St construct p_compress p_decompress ord).

  Lemma read_cases f : (exists xs reqs ress, readable f xs /\ xs = combine reqs ress /\ read_har_file disk urlsplit f = (open_and_close f, inr (reqs, ress))) \/
    exists ev e, wrong f ev e /\ read_har_file disk urlsplit f = (ev, inl e).
  Proof.
    unfold read_har_file. unfold Prop_Main.wrong, Prop_Main.readable. destruct (disk f) as [| |x|es] eqn:D.
    - right. do 2 eexists. split; [left; auto|reflexivity].
    - right. do 2 eexists. split; [right; left; auto|reflexivity].
    - right. do 2 eexists. split; [right; right; left; eauto|reflexivity].
    - destruct (har2hdrs urlsplit es) as [[reqs ress]|x] eqn:H.
      + left. exists (combine reqs ress), reqs, ress. split; [exists es, reqs, ress; auto|]. auto.
      + right. do 2 eexists. split; [right; right; right; exists es, x; eauto|reflexivity].
  Qed.

  Lemma readable_unique f xs ys : readable f xs -> readable f ys -> xs = ys.
  Proof. intros (es & a & b & E & H & ->) (es' & a' & b' & E' & H' & ->). congruence. Qed.
  Lemma wrong_not f ev e xs : wrong f ev e -> readable f xs -> False.
  Proof.
    intros W (es & a & b & E & H & _). destruct W as [[W _]|[[W _]|[(x & W & _)|(es' & x & W & K & _)]]]; try congruence.
  Qed.
  Lemma wrong_unique f ev e ev' e' : wrong f ev e -> wrong f ev' e' -> ev = ev' /\ e = e'.
  Proof.
    intros [(A & -> & ->)|[(A & -> & ->)|[(x & A & -> & ->)|(es & x & A & B & -> & ->)]]]
           [(A' & -> & ->)|[(A' & -> & ->)|[(x' & A' & -> & ->)|(es' & x' & A' & B' & -> & ->)]]]; rewrite A in A'; try discriminate; auto.
    - injection A' as ->. auto.
    - injection A' as ->. rewrite B in B'. injection B' as ->. auto.
  Qed.

  Lemma read_all_fine name s files xs : chosen psl name s -> Forall2 readable files xs ->
    exists ss, all_sessions s xs = Ok ss /\ forall rest, read_all s (files ++ rest) =
      (flat_map open_and_close files ++ fst (read_all s rest), match snd (read_all s rest) with inl e => inl e | inr r => inr (ss ++ r) end).
  Proof.
    intros C. induction 1 as [|f x files xs R F (ss & IH1 & IH2)].
    - exists []. split; [reflexivity|]. intros rest. cbn. destruct (read_all s rest) as [ev [e|r]]; reflexivity.
    - destruct (read_cases f) as [(x' & reqs & ress & R' & EX & E)|(ev & e & W & _)]; [|destruct (wrong_not _ _ _ _ W R)].
      pose proof (readable_unique _ _ _ R R') as <-.
      destruct (chosen_total psl name s x C) as (s1 & S1).
      { destruct R as (es & a & b & _ & H & ->). now apply (har_hosts urlsplit es). }
      exists (s1 ++ ss). split; [cbn [all_sessions]; rewrite S1; cbn [bind]; now rewrite IH1|].
      intros rest. cbn [app Main_Model.read_all flat_map]. rewrite E, <- EX, S1, IH2.
      destruct (read_all s rest) as [ev [e|r]]; cbn [fst snd]; rewrite <- ?app_assoc; reflexivity.
  Qed.

  Lemma read_all_wrong name s a xs f ev e b : chosen psl name s -> Forall2 readable a xs -> wrong f ev e ->
    read_all s (a ++ f :: b) = (flat_map open_and_close a ++ ev, inl e).
  Proof.
    intros C F W. destruct (read_all_fine name s a xs C F) as (ss & _ & ->). cbn [Main_Model.read_all].
    destruct (read_cases f) as [(x' & reqs & ress & R' & _ & _)|(ev' & e' & W' & ->)]; [destruct (wrong_not _ _ _ _ W R')|].
    destruct (wrong_unique _ _ _ _ _ W W') as [-> ->]. reflexivity.
  Qed.

  (** All files are readable, or there is a first that is not. *)
  Lemma first_wrong files : (exists xs, Forall2 readable files xs) \/
    exists a xs f ev e b, files = a ++ f :: b /\ Forall2 readable a xs /\ wrong f ev e.
  Proof.
    induction files as [|f files [(xs & IH)|(a & xs & g & ev & e & b & -> & F & W)]].
    - left. exists []. constructor.
    - destruct (read_cases f) as [(x & _ & _ & R & _)|(ev & e & W & _)].
      + left. exists (x :: xs). now constructor.
      + right. exists [], [], f, ev, e, files. split; [reflexivity|]. split; [constructor|exact W].
    - destruct (read_cases f) as [(x & _ & _ & R & _)|(ev' & e' & W' & _)].
      + right. exists (f :: a), (x :: xs), g, ev, e, b. split; [reflexivity|]. split; [now constructor|exact W].
      + right. exists [], [], f, ev', e', (a ++ g :: b). split; [reflexivity|]. split; [constructor|exact W'].
  Qed.

  (** ** C108 *)

  (** The program prints its reports exactly if the command line is one of C107,
      the streamifier is one of the three, every file can be read, and the run
      (C77-C79) on their exchanges gives that report; the files have then been
      opened and closed in order. *)
Theorem C108_reports : forall argv ev rep,
    program argv = (ev, Reported rep) <->
    exists l v files s xs, says read_int argv l files /\ describes read_int l v /\ chosen psl (v_streamifier v) s /\
      Forall2 readable files xs /\ run s (opts_of v) xs = Ok rep /\ ev = flat_map open_and_close files ++ [Processing].
  Proof.
    intros argv ev rep. split.
    - unfold Main_Model.program. destruct (parse_options read_int argv) as [v files|c] eqn:P; [|discriminate].
      destruct (construct_all St construct (names_of (opts_of v))) as [procs|e] eqn:CA; [|discriminate].
      destruct (load_streamifier psl other_streamifier (v_streamifier v)) as [e|s] eqn:L; [discriminate|]. apply load_chosen in L.
      destruct (first_wrong files) as [(xs & F)|(a & xs & f & ev' & e & b & -> & F & W)].
      + destruct (read_all_fine _ s files xs L F) as (ss & E1 & E2). specialize (E2 []). rewrite app_nil_r in E2. cbn [Main_Model.read_all fst snd] in E2.
        rewrite !app_nil_r in E2. rewrite E2. destruct (finish St construct p_compress p_decompress ord (opts_of v) procs ss) as [r|e] eqn:FI; [|discriminate].
        intros H. injection H as <- <-. destruct (parsed_says _ _ _ _ P) as (l & SA & D). exists l, v, files, s, xs. split; [exact SA|]. split; [exact D|]. split; [exact L|].
        split; [exact F|]. split; [|reflexivity]. rewrite run_finish, CA. cbn [bind]. rewrite E1. exact FI.
      + rewrite (read_all_wrong _ s a xs f ev' e b L F W). discriminate.
    - intros (l & v & files & s & xs & SA & D & C & F & R & ->). unfold Main_Model.program. rewrite (says_parsed _ _ _ _ _ SA D).
      rewrite run_finish in R. apply bind_ok in R as (procs & -> & R). apply bind_ok in R as (ss & E1 & R).
      pose proof C as L. apply (load_chosen psl other_streamifier) in L. rewrite L.
      destruct (read_all_fine _ s files xs C F) as (ss' & E1' & E2). rewrite E1 in E1'. injection E1' as <-.
      specialize (E2 []). rewrite app_nil_r in E2. cbn [Main_Model.read_all fst snd] in E2. rewrite !app_nil_r in E2. rewrite E2, R. reflexivity.
  Qed.

  (** The first file that cannot be read ends the program with its exception: no
      later file is opened and nothing is printed, whatever the others hold. *)
Theorem C108_wrong_file : forall argv l v procs s a xs f ev e b,
    says read_int argv l (a ++ f :: b) -> describes read_int l v -> construct_all St construct (names_of (opts_of v)) = Ok procs ->
    chosen psl (v_streamifier v) s -> Forall2 readable a xs -> wrong f ev e ->
    program argv = (flat_map open_and_close a ++ ev, Raised e).
  Proof.
    intros argv l v procs s a xs f ev e b SA D CA C F W. unfold Main_Model.program. rewrite (says_parsed _ _ _ _ _ SA D), CA.
    pose proof C as L. apply (load_chosen psl other_streamifier) in L. rewrite L. now rewrite (read_all_wrong _ s a xs f ev e b C F W).
  Qed.

  (** Files are always closed again, and all of them before anything is printed. *)
Theorem C108_tidy : forall argv, tidy (fst (program argv)).
  Proof.
    intros argv. unfold Main_Model.program. destruct (parse_options read_int argv) as [v files|c]; [|constructor].
    destruct (construct_all St construct (names_of (opts_of v))) as [procs|e]; [|constructor].
    destruct (load_streamifier psl other_streamifier (v_streamifier v)) as [e|s] eqn:L; [constructor|]. apply load_chosen in L.
    assert (T : forall a l, tidy l -> tidy (flat_map open_and_close a ++ l)).
    { induction a as [|f a IH]; intros l H; [exact H|]. cbn [flat_map open_and_close app]. constructor. now apply IH. }
    destruct (first_wrong files) as [(xs & F)|(a & xs & f & ev' & e & b & -> & F & W)].
    - destruct (read_all_fine _ s files xs L F) as (ss & E1 & E2). specialize (E2 []). rewrite app_nil_r in E2. cbn [Main_Model.read_all fst snd] in E2.
      rewrite !app_nil_r in E2. rewrite E2. cbn [fst]. apply T. constructor.
    - rewrite (read_all_wrong _ s a xs f ev' e b L F W). cbn [fst]. apply T.
      destruct W as [(_ & -> & _)|[(_ & -> & _)|[(x & _ & -> & _)|(es & x & _ & _ & -> & _)]]]; repeat constructor.
  Qed.

  (** The status of the process is 0 exactly if there are reports or help was
      asked for; a report is only ever printed when every file was read. *)
Theorem C108_status : forall argv,
    status (snd (program argv)) = 0 <->
    (exists rep, snd (program argv) = Reported rep) \/
    exists ws a rest, argv = flat_map text ws ++ a :: rest /\ Forall (right_word read_int) ws /\ asks_help a.
  Proof.
    intros argv. unfold Main_Model.program.
    assert (NH : forall v files, parse_options read_int argv = Parsed v files ->
      ~ exists ws a rest, argv = flat_map text ws ++ a :: rest /\ Forall (right_word read_int) ws /\ asks_help a).
    { intros v files P (ws & a & rest & -> & F & A). unfold parse_options in P.
      destruct (parse_words read_int ws F (a :: rest) defaults []) as (v1 & _ & E). rewrite E, help_exits in P by exact A. discriminate. }
    destruct (parse_options read_int argv) as [v files|c] eqn:P.
    - specialize (NH v files eq_refl).
      assert (G : forall e : ending, (forall c, e <> Exited c) -> (status e = 0 <-> (exists rep, e = Reported rep) \/
         exists ws a rest, argv = flat_map text ws ++ a :: rest /\ Forall (right_word read_int) ws /\ asks_help a)).
      { intros [r|x|c] NE; cbn [status]; [|split; [discriminate|intros [[r H]|H]; [discriminate|contradiction]]|now specialize (NE c)].
        split; [intros _; left; eauto|reflexivity]. }
      destruct (construct_all St construct (names_of (opts_of v))) as [procs|e]; [|apply G; discriminate].
      destruct (load_streamifier psl other_streamifier (v_streamifier v)) as [e|s]; [apply G; discriminate|].
      destruct (read_all s files) as [ev [e|ss]]; [apply G; discriminate|]. cbn [snd]. apply G.
      destruct (finish St construct p_compress p_decompress ord (opts_of v) procs ss); discriminate.
    - cbn [snd status]. apply C107_ends in P. destruct P as [[-> H]|[-> H]].
      + split; auto.
      + split; [discriminate|]. intros [[r K]|K]; [discriminate|contradiction].
  Qed.

  Lemma describes_same l1 l2 v : (forall o, In (o, None) l1 <-> In (o, None) l2) -> (forall o, given o l1 = given o l2) ->
    describes read_int l1 v -> describes read_int l2 v.
  Proof. intros I G. unfold describes, last_given. rewrite !G, !I. auto. Qed.

  Lemma given_none o w : ~ valued_in w o -> given o (settings w) = [].
  Proof.
    intros NV. assert (H : forall l, (forall x, ~ In (o, Some x) l) -> given o l = []).
    { induction l as [|[o' [x|]] l IH]; intros K; cbn [given flat_map]; [reflexivity| |].
      - unfold given in IH. rewrite IH by (intros y Hy; apply (K y); now right).
        destruct (opt_eq_dec o' o) as [->|]; [destruct (K x); now left|reflexivity].
      - apply IH. intros y Hy. apply (K y). now right. }
    apply H. intros x Hx. apply NV. now exists x.
  Qed.

  (** Neighbouring words can change places unless both name files or both give a
      value to one option: the whole program does the same. *)
Theorem C108_order : forall ws1 w1 w2 ws2 tail, Forall (right_word read_int) (ws1 ++ w1 :: w2 :: ws2) -> unrelated w1 w2 ->
    program (flat_map text (ws1 ++ w1 :: w2 :: ws2) ++ lit "--" :: tail) = program (flat_map text (ws1 ++ w2 :: w1 :: ws2) ++ lit "--" :: tail).
  Proof.
    intros ws1 w1 w2 ws2 tail F [UF UV]. unfold Main_Model.program.
    assert (F' : Forall (right_word read_int) (ws1 ++ w2 :: w1 :: ws2)).
    { apply Forall_app in F as [A B]. apply Forall_app. split; [exact A|]. inversion B as [|? ? B1 B2]; subst. inversion B2; subst. now repeat constructor. }
    assert (E : parse_options read_int (flat_map text (ws1 ++ w1 :: w2 :: ws2) ++ lit "--" :: tail) = parse_options read_int (flat_map text (ws1 ++ w2 :: w1 :: ws2) ++ lit "--" :: tail)).
    { unfold parse_options at 1. destruct (parse_words read_int _ F (lit "--" :: tail) defaults []) as (v1 & S1 & E1). rewrite E1. symmetry.
      apply C107_command_line. exists (ws1 ++ w2 :: w1 :: ws2), (lit "--" :: tail). split; [reflexivity|]. split; [exact F'|]. split.
      - apply (describes_same (flat_map settings (ws1 ++ w1 :: w2 :: ws2))).
        + intros o. rewrite !flat_map_app. cbn [flat_map]. rewrite !in_app_iff. tauto.
        + intros o. rewrite !flat_map_app. cbn [flat_map]. rewrite !given_app. f_equal. rewrite !app_assoc. f_equal.
          destruct (list_eq_dec (list_eq_dec N.eq_dec) (given o (settings w1)) []) as [->|N1]; [now rewrite app_nil_r|].
          rewrite (given_none o w2); [now rewrite app_nil_r|]. intros V2. apply (UV o). split; [|exact V2].
          assert (K : forall l, given o l <> [] -> exists x, In (o, Some x) l).
          { induction l as [|[o' [x|]] l IH]; intros NE; [contradiction| |].
            - destruct (opt_eq_dec o' o) as [->|NO]; [exists x; now left|]. cbn [given flat_map] in NE.
              destruct (opt_eq_dec o' o); [contradiction|]. destruct (IH NE) as [y Hy]. exists y. now right.
            - destruct (IH NE) as [y Hy]. exists y. now right. }
          now apply K.
        + apply set_all_describes; [now apply fine_all|exact S1].
      - right. exists tail. split; [reflexivity|]. rewrite app_nil_l. rewrite !flat_map_app. cbn [flat_map]. f_equal. f_equal. rewrite !app_assoc. f_equal.
        destruct UF as [->| ->]; now rewrite ?app_nil_r. }
    now rewrite E.
  Qed.

  (** With usable processors (C79) and readable files, sorted by host or public
      suffix: reports exactly if some file has an exchange by HTTP. *)
Theorem C108_completes : forall argv l v files s xs, is_order ord -> usable St construct p_compress p_decompress (opts_of v) ->
    says read_int argv l files -> describes read_int l v -> chosen psl (v_streamifier v) s -> v_streamifier v <> lit "all_one" ->
    Forall2 readable files xs ->
    (exists rep, snd (program argv) = Reported rep) <->
    exists f es e scheme path query, In f files /\ disk f = Har es /\ In e es /\ urlsplit (h_url e) = Ok (scheme, path, query) /\
      (lower scheme = lit "http" \/ lower scheme = lit "https").
  Proof.
    intros argv l v files s xs O U SA D C NA F.
    assert (AH : all_hosts xs).
    { unfold all_hosts. clear -F. induction F as [|f x files xs R F IH]; constructor; [|exact IH]. destruct R as (es & a & b & _ & H & ->). now apply (har_hosts urlsplit es). }
    assert (RN : (exists rep, run s (opts_of v) xs = Ok rep) <-> exists x, In x xs /\ x <> []).
    { destruct C as [[_ ->]|[[K _]|(_ & p & _ & ->)]]; [|contradiction|].
      - now apply C79_host.
      - now apply C79_public_suffix. }
    assert (PR : (exists rep, snd (program argv) = Reported rep) <-> exists rep, run s (opts_of v) xs = Ok rep).
    { split; intros [rep H].
      - destruct (program argv) as [ev e] eqn:P. cbn [snd] in H. subst e. apply C108_reports in P.
        destruct P as (l' & v' & files' & s' & xs' & SA' & D' & C' & F' & R & _).
        pose proof (says_parsed _ _ _ _ _ SA D) as P1. rewrite (says_parsed _ _ _ _ _ SA' D') in P1. injection P1 as -> ->.
        assert (s' = s) by (apply (load_chosen psl other_streamifier) in C, C'; congruence). subst s'.
        assert (xs' = xs). { clear -F F'. revert xs' F'. induction F as [|f x files xs R F IH]; intros xs' F'; inversion F'; subst; [reflexivity|]. f_equal; [eapply readable_unique; eauto|now apply IH]. }
        subst xs'. eauto.
      - exists rep. assert (P : program argv = (flat_map open_and_close files ++ [Processing], Reported rep)); [|now rewrite P].
        apply C108_reports. exists l, v, files, s, xs. auto 10. }
    rewrite PR, RN. clear -F. split.
    - intros (x & Hx & NE). induction F as [|f y files xs R F IH]; [destruct Hx|]. destruct Hx as [->|Hx].
      + destruct R as (es & reqs & ress & E & H & EX). pose proof (C44_har_pairs urlsplit es reqs ress H) as K. cbv zeta in K. destruct K as (L1 & _).
        set (ff := fun e => match urlsplit (h_url e) with Ok (scheme, _, _) => mem_str (lower scheme) [lit "http"; lit "https"] | Err _ => false end) in *.
        destruct (filter ff es) as [|e us] eqn:FE; [destruct reqs; [subst x; contradiction|discriminate]|].
        assert (IE : In e (filter ff es)) by (rewrite FE; now left). apply filter_In in IE. destruct IE as [IE T]. unfold ff in T.
        destruct (urlsplit (h_url e)) as [[[scheme path] query]|] eqn:UE; [|discriminate]. exists f, es, e, scheme, path, query.
        split; [now left|]. split; [exact E|]. split; [exact IE|]. split; [exact UE|]. destruct (mem_str_spec (lower scheme) [lit "http"; lit "https"]) as [M|]; [|discriminate]. destruct M as [<-|[<-|[]]]; auto.
      + destruct (IH Hx) as (g & es & e & sc & p & q & I1 & R1). exists g, es, e, sc, p, q. split; [now right|exact R1].
    - intros (f & es & e & sc & p & q & I1 & E & I2 & UE & T). induction F as [|g y files xs R F IH]; [destruct I1|]. destruct I1 as [->|I1].
      + exists y. split; [now left|]. destruct R as (es' & reqs & ress & E' & H & ->). rewrite E in E'. injection E' as <-.
        pose proof (C44_har_pairs urlsplit es reqs ress H) as K. cbv zeta in K. destruct K as (L1 & L2 & _).
        set (ff := fun e => match urlsplit (h_url e) with Ok (scheme, _, _) => mem_str (lower scheme) [lit "http"; lit "https"] | Err _ => false end) in *.
        assert (IE : In e (filter ff es)). { apply filter_In. split; [exact I2|]. unfold ff. rewrite UE. destruct T as [->| ->]; reflexivity. }
        destruct (filter ff es); [destruct IE|]. destruct reqs, ress; try discriminate.
      + destruct (IH I1) as (x & Hx & NE). exists x. split; [now right|exact NE].
  Qed.
End Proofs.

Print Assumptions C108_reports.
Print Assumptions C108_wrong_file.
Print Assumptions C108_tidy.
Print Assumptions C108_status.
Print Assumptions C108_order.
Print Assumptions C108_completes.

(** ** Cases *)

Definition demo_split (u : str) : res (str * str * str) := Ok (fst (split_once 58 u), lit "/", @nil N).
Definition demo_har (u : string) : har_entry := mkHar (lit u) (lit "GET") (lit "HTTP/1.1") [] (lit "200") [] (lit "HTTP/1.1") [].
Definition demo_disk (f : str) : on_disk :=
  if str_eqb f (lit "a.har") then Har [demo_har "http://a/"; demo_har "data:x"; demo_har "https://b/"]
  else if str_eqb f (lit "b.har") then Har [demo_har "http://b/"]
  else if str_eqb f (lit "data.har") then Har [demo_har "data:x"]
  else if str_eqb f (lit "notes.txt") then Unparsable else if str_eqb f (lit "list.json") then Misshapen TypeError else Missing.
Definition demo_program (argv : list string) := program demo_disk demo_split None (fun _ => ImportError) read_digit N (fun _ _ _ => Ok 5) plain_compress toy_decompress (fun l => l) (map lit argv).

(** Two files, the options between them; three streams of each direction. *)
Example C108_run : match demo_program ["-b"; "id"; "a.har"; "-c"; "cnt"; "-shost"; "--"; "b.har"]%string with
  | (ev, Reported rep) => ev = [Opened (lit "a.har"); Closed (lit "a.har"); Opened (lit "b.har"); Closed (lit "b.har"); Processing] /\
      map sr_count (rep_sessions rep) = [1; 1; 1; 1; 1; 1]%nat /\ tr_count (rep_req rep) = 3%nat /\ map l_proc (tr_lines (rep_req rep)) = [lit "id"; lit "cnt"]
  | _ => False
  end.
Proof. vm_compute. repeat split; reflexivity. Qed.

Example C108_endings :
  demo_program ["-b"; "id"; "-s"; "host"; "a.har"; "notes.txt"; "b.har"]%string =
    ([Opened (lit "a.har"); Closed (lit "a.har"); Opened (lit "notes.txt"); Told (lit "Unable to parse notes.txt" ++ [10; 10]); Closed (lit "notes.txt")], Raised (Exc TypeError)) /\
  demo_program ["-s"; "host"; "gone.har"; "a.har"]%string = ([], Raised IOErr) /\
  demo_program ["a.har"]%string = ([], Raised (Exc ImportError)) /\
  demo_program ["-s"; "host"; "data.har"]%string = ([Opened (lit "data.har"); Closed (lit "data.har"); Processing], Raised (Exc TypeError)) /\
  demo_program ["a.har"; "-th"]%string = ([], Exited 0) /\ demo_program ["-q"]%string = ([], Exited 2).
Proof. vm_compute. repeat split; reflexivity. Qed.

Example C108_meets :
  usable N (fun _ _ _ => Ok 5) plain_compress toy_decompress toy_opts /\
  opts_of (mk_values 1 false [lit "cnt"] (Some (lit "id")) true (lit "host") []) = toy_opts /\
  unrelated (Short [Debug] (Some (Codec, lit "a", true))) (Short [] (Some (Baseline, lit "a", false))) /\
  unrelated (File (lit "x")) (Short [] (Some (Codec, lit "a", false))) /\
  wrong demo_disk demo_split (lit "notes.txt") [Opened (lit "notes.txt"); Told (lit "Unable to parse notes.txt" ++ [10; 10]); Closed (lit "notes.txt")] (Exc TypeError).
Proof.
  split; [apply C79_usable|]. split; [reflexivity|]. split; [|split].
  - split; [now left|]. intros o [[x X] [y Y]]. cbn in X, Y. destruct X as [X|[X|[]]], Y as [Y|[]]; congruence.
  - split; [now right|]. intros o [[x X] _]. destruct X.
  - right. left. now repeat split.
Qed.

(** A file that does not parse should end the program with sys.exit(1): it never
    does, the line before raises.  Nor does the order of options of the same
    kind, or of the files, go unnoticed. *)
Theorem C108_parse_error_refuted : exists argv,
  snd (demo_program argv) = Raised (Exc TypeError) /\ In (Told (lit "Unable to parse notes.txt" ++ [10; 10])) (fst (demo_program argv)) /\
  forall disk us psl oth ri St c pc pd ord argv', snd (program disk us psl oth ri St c pc pd ord argv') <> Exited 1.
Proof.
  exists ["-b"; "id"; "-s"; "host"; "notes.txt"]%string. split; [vm_compute; reflexivity|]. split; [vm_compute; auto|].
  intros disk us psl oth ri St c pc pd ord argv'. unfold program. destruct (parse_options ri argv') as [v fs|k] eqn:P.
  - destruct (construct_all St c (names_of (opts_of v))) as [a|]; [|discriminate]. destruct (load_streamifier psl oth (v_streamifier v)) as [|s]; [discriminate|].
    destruct (read_all disk us s fs) as [ev [e|ss]]; [discriminate|]. cbn [snd]. destruct (finish St c pc pd ord (opts_of v) a ss); discriminate.
  - apply C107_ends in P. cbn [snd]. destruct P as [[-> _]|[-> _]]; discriminate.
Qed.
Print Assumptions C108_parse_error_refuted.

Theorem C108_order_of_values_refuted : exists a b, Permutation a b /\ demo_program a <> demo_program b.
Proof.
  exists ["-sall_one"; "-bid"; "-bcnt"; "a.har"]%string, ["-sall_one"; "-bcnt"; "-bid"; "a.har"]%string. split; [apply perm_skip, perm_swap|].
  intros H. apply (f_equal (fun x => match snd x with Reported r => map l_proc (tr_lines (rep_req r)) | _ => [] end)) in H. vm_compute in H. discriminate.
Qed.
Print Assumptions C108_order_of_values_refuted.
