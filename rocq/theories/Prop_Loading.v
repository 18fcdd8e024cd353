(** C80: which of the shipped codecs the tool can be run with. *)
From Coq Require Import String List NArith Bool.
From Verif Require Import PyBase PyStr Lib_Model Lib_Proofs Run_Model Loading_Model.
Import ListNotations.
Open Scope py_scope.
Local Open Scope string_scope.

(** Under Python 2 the tool does not start. *)
Theorem C80_python2 : forall installed, tool_starts Py2 installed = false.
Proof. intros i. unfold tool_starts, library. cbn. now rewrite andb_false_r. Qed.
Print Assumptions C80_python2.

(** Under Python 3 it does; five of the fourteen codecs load, one of them
    needing a third-party package; which others are installed does not
    matter, except that a codec's missing module could be supplied by a
    package of the same name. *)
Theorem C80_python3 : forall installed, tool_starts Py3 installed = true /\
  (installed "urlparse" = false -> installed "http2Codec" = false -> installed "headerDiffCodec" = false ->
   forall c, In c shipped ->
     (load_codec Py3 installed c = Fine <->
      In c ["http1"; "http1_gzip"; "http1_huffman"; "spdy3"] \/ c = "hyper_hpack" /\ installed "hpack" = true)).
Proof.
  intros i. split; [reflexivity|]. intros H1 H2 H3 c Hc.
  unfold shipped in Hc. repeat destruct Hc as [<-|Hc]; [..|destruct Hc]; unfold load_codec; cbn; unfold library; cbn;
    rewrite ?H1, ?H2, ?H3; cbn; try (split; [discriminate|]; intros [D|[D _]]; [repeat destruct D as [D|D]; try discriminate D; destruct D|discriminate D]);
    try (split; [tauto|reflexivity]).
  rewrite ?andb_true_r. destruct (i "hpack"); split; intros H; try discriminate H; auto.
  destruct H as [D|[_ D]]; [repeat destruct D as [D|D]; try discriminate D; destruct D|discriminate D].
Qed.
Print Assumptions C80_python3.

(** Those for which a processor can be made. *)
Theorem C80_made : forall installed, installed "urlparse" = false -> installed "http2Codec" = false -> installed "headerDiffCodec" = false ->
  forall c params, In c shipped ->
  (make Py3 installed c params = Fine <->
   c = "http1" \/ c = "spdy3" /\ ~ In "dict" params \/ c = "hyper_hpack" /\ installed "hpack" = true).
Proof.
  intros i H1 H2 H3 c ps Hc. pose proof (proj1 (proj2 (C80_python3 i) H1 H2 H3 c Hc)) as P.
  pose proof (proj2 (proj2 (C80_python3 i) H1 H2 H3 c Hc)) as Q. unfold make.
  assert (Hm : mem "dict" ps = true <-> In "dict" ps).
  { unfold mem. rewrite existsb_exists. split; [intros (x & Hx & E); apply String.eqb_eq in E; now subst|].
    intros H. exists "dict". now rewrite String.eqb_refl. }
  destruct (load_codec Py3 i c) as [|f].
  - destruct (P eq_refl) as [H|[-> H]].
    + unfold primed. repeat destruct H as [<-|H]; [..|destruct H]; cbn [mem existsb String.eqb Ascii.eqb Bool.eqb orb andb].
      * tauto.
      * cbn. split; [discriminate|]. intros [D|[[D _]|[D _]]]; discriminate D.
      * cbn. split; [discriminate|]. intros [D|[[D _]|[D _]]]; discriminate D.
      * change (existsb (String.eqb "dict") ps) with (mem "dict" ps). cbn. destruct (mem "dict" ps).
        -- split; [discriminate|]. intros [D|[[_ D]|[D _]]]; try discriminate D. exfalso. tauto.
        -- split; [|reflexivity]. intros _. right. left. split; [reflexivity|]. intros D. apply Hm in D. discriminate D.
    + split; [tauto|reflexivity].
  - split; [discriminate|]. intros H. exfalso. assert (Fails f = Fine) as D; [|discriminate D]. apply Q.
    destruct H as [->|[[-> _]|H]]; cbn; tauto.
Qed.
Print Assumptions C80_made.

(** Two codecs load under neither version, whatever is installed. *)
Theorem C80_never : forall v installed c, c = "fork" \/ c = "delta2_bohe" -> load_codec v installed c <> Fine.
Proof.
  intros v i c [-> | ->]; destruct v; unfold load_codec; cbn; unfold library; cbn; try discriminate.
  destruct (i "werkzeug"); cbn; discriminate.
Qed.
Print Assumptions C80_never.

Theorem C80_every_codec_refuted : exists c, In c shipped /\ forall v installed params, make v installed c params <> Fine.
Proof.
  exists "fork". split; [cbn; tauto|]. intros v i ps. unfold make. pose proof (C80_never v i "fork" (or_introl eq_refl)).
  destruct (load_codec v i "fork"); congruence.
Qed.
Print Assumptions C80_every_codec_refuted.

(** A run that produces reports was given only codecs for which a processor
    can be made. *)
Theorem C80_run : forall v installed St (construct : str -> bool -> list str -> res St) p_compress p_decompress ord streamify o files rep,
  (forall c params t st, construct (lit c) t (map lit params) = Ok st -> make v installed c params = Fine) ->
  run St construct p_compress p_decompress ord streamify o files = Ok rep ->
  forall n c params, In n (names_of o) -> parse_spec n = Ok (lit c, map lit params) -> make v installed c params = Fine.
Proof.
  intros v i St construct pc pd ord sf o files rep HC E n c ps Hn Hp. unfold run in E.
  destruct (construct_all St construct (names_of o)) as [procs|e] eqn:EC; [|discriminate E]. clear E.
  revert procs EC. induction (names_of o) as [|x xs IH]; intros procs EC; [destruct Hn|]. cbn [construct_all] in EC.
  apply bind_ok in EC as ((m, qs) & E1 & EC). apply bind_ok in EC as (s1 & E2 & EC). apply bind_ok in EC as (s2 & E3 & EC).
  apply bind_ok in EC as (r & E4 & EC). destruct Hn as [-> | Hn]; [|now apply (IH Hn r)].
  rewrite Hp in E1. injection E1 as <- <-. now apply (HC c ps true s1).
Qed.
Print Assumptions C80_run.

(** With hpack installed on Python 3; and what Python 2 would load if the
    tool itself started. *)
Definition some_installed (m : string) : bool := mem m ["hpack"; "bitarray"; "werkzeug"; "publicsuffix"].

Example C80_example :
  filter (fun c => match make Py3 some_installed c [] with Fine => true | _ => false end) shipped = ["http1"; "hyper_hpack"; "spdy3"] /\
  filter (fun c => match load_codec Py2 some_installed c with Fine => false | _ => true end) shipped = ["delta2_bohe"; "fork"] /\
  load_codec Py3 some_installed "delta2" = Fails SyntaxErr /\ load_codec Py3 some_installed "http2" = Fails ImportErr /\
  make Py3 some_installed "spdy3" ["dict"] = Fails TypeErr.
Proof. vm_compute. repeat split. Qed.

(** A selection that meets the last theorem's hypothesis: -c 'spdy3=dict' names codec spdy3 with parameter dict. *)
Example C80_run_example : parse_spec (lit "spdy3=dict") = Ok (lit "spdy3", map lit ["dict"]).
Proof. reflexivity. Qed.
