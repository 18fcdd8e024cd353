(** * Property C100: a whole run of the tool with its own codecs reports no
      differences. *)
From Coq Require Import String List NArith ZArith Bool Lia Permutation.
From Verif Require Import PyBase Lib_Model Lib_Spec Lib_Proofs Lib_Session H1_Model H1_Spec H1_Proofs Prop_H1
  HTTP2_Model HTTP2_Sim HTTP2_Inv HTTP2_Spec HTTP2_More HTTP2_Proc_Model HTTP2_Proc
  HD_Model HD_Spec HD_Sim HD_Session HD_Proc_Model HDHuff_Model Prop_HD Prop_HDHuff
  D1Huff_Model D1Wire_Model D1Code_Model D1Code_Inv D1Code_Exec Prop_D1Code D2Huff_Model D2Wire_Model D2Store_Model D2Code_Model D2Code_Exec D2Code_Make D2Code_Round
  D2Code_Says Prop_D2Wire Prop_D2Code
  Simple_Model Simple_Spec Simple_Proofs Simple_Session Prop_Simple Params_Model Tool_Model Run_Model Run_Proofs Tool_Clean Tool_Proofs PyStr.
Import ListNotations.
Open Scope N_scope.
Open Scope py_scope.

(** What is outside the codecs behaves: iterations visit every element once,
    headerdiff's Huffman tables are the shipped ones (in any order), and the
    coders of delta and delta2 are made from frequency tables that have all octets. *)
Record env_ok (E : env) : Prop := {
  eo_hd_order : some_order (e_hd_order E);
  eo_hd_codec : forall q, Prop_HDHuff.table_of (e_hd_codec E q);
  eo_d2_coder : forall q, coder (e_d2_coder E q);
  eo_d2_order : forall n, order_ok (e_d2_order E n);
  eo_d2_refs : forall n z, Permutation (e_d2_refs E n z) z;
  eo_d1_coder : forall q, coder1 (e_d1_coder E q);
  eo_d1_groups : visits (e_d1_groups E);
  eo_d1_order : forall n, order1_ok (e_d1_order E n);
  eo_d1_refs : forall n z, Permutation (e_d1_refs E n z) z;
  eo_simple_order : any_order (e_simple_order E) }.

Section Tool.
  Variable E : env.
  Variable O : Type.
  Variable other_new : str -> bool -> list str -> res O.
  Variable other_compress : str -> O -> hdict -> str -> res (O * str).
  Variable other_decompress : str -> O -> str -> res (O * option hdict).

  Notation new := (tool_new E O other_new).
  Notation comp := (tool_compress E O other_compress).
  Notation dec := (tool_decompress E O other_decompress).
  Notation solo := (solo_run (pstate O) comp dec).

  (** What the processors are given of a stream: its messages without the
      connection headers (C61). *)
  Definition given (s : stream_desc) : list hdict := map (fun x => filter_headers (fst x)) (sd_msgs s).

  (** No text the processor makes of this stream is longer than 65536 octets. *)
  Definition no_long_output (m : str) (ps : list str) (s : stream_desc) : Prop :=
    forall st k rs, new m (sd_req s) ps = Ok st -> solo m st (firstn k (sd_msgs s)) rs -> Forall (fun r => fst r <= 65536) rs.

  (** The streams an option [n] of the command line can cope with. *)
  Inductive suits (n : str) (s : stream_desc) : Prop :=
  | suits_http1 ps : parse_spec n = Ok (lit "http1", ps) ->
      Forall (fun d => if sd_req s then wf_request (lit "host") d else wf_response (lit "host") d) (given s) -> suits n s
  | suits_http2 ps : parse_spec n = Ok (lit "http2", ps) -> Forall blank_only (given s) -> suits n s
  | suits_headerdiff ps a : parse_spec n = Ok (lit "headerdiff", ps) -> hd_params ps = Ok a ->
      ha_window a = None -> (0 <= ha_buffer a)%Z ->
      Forall blank_only (given s) -> distinct_texts (map (fun d => (sd_req s, hd_split d)) (given s)) -> suits n s
  | suits_delta2 ps : parse_spec n = Ok (lit "delta2", ps) ->
      Forall (fun d => octet_headers d /\ plain_cookie d) (given s) -> no_long_output (lit "delta2") ps s -> suits n s
  | suits_delta ps : parse_spec n = Ok (lit "delta", ps) ->
      Forall (delta_message E) (given s) -> no_long_output (lit "delta") ps s -> suits n s
  | suits_simple ps a o : parse_spec n = Ok (lit "simple", ps) -> s_params ps = Ok a -> sa_coding a = Plain -> simple_opts E (sd_req s) a = Some o ->
      Forall (fun d => simple_message (sd_req s) d /\ dates_ok o d) (given s) -> suits n s
  | suits_simple_seven ps a : parse_spec n = Ok (lit "simple", ps) -> s_params ps = Ok a -> sa_coding a = Seven -> sa_dates a = false ->
      Forall (fun d => simple_message (sd_req s) d /\ ascii_headers d) (given s) -> suits n s
  | suits_no_decompressor m ps : parse_spec n = Ok (m, ps) ->
      ~ In m [lit "http1"; lit "http2"; lit "headerdiff"; lit "delta2"; lit "delta"; lit "simple"] ->
      (forall x c x' od, other_decompress m x c = Ok (x', od) -> od = None) -> suits n s.

  Lemma given_first k s : map (fun x : hdict * str => filter_headers (fst x)) (firstn k (sd_msgs s)) = firstn k (given s).
  Proof. unfold given. symmetry. apply firstn_map. Qed.

  Lemma forall_first {A} (P : A -> Prop) k l : Forall P l -> Forall P (firstn k l).
  Proof. intros H. apply Forall_forall. intros x Hx. rewrite Forall_forall in H. apply H. rewrite <- (firstn_skipn k l). apply in_or_app. now left. Qed.

  Lemma other_faithful m x msgs : (forall x c x' od, other_decompress m x c = Ok (x', od) -> od = None) -> faithful (pstate O) comp dec m (POther O x) msgs.
  Proof.
    intros H k rs R. generalize dependent (firstn k msgs). clear k msgs. intros msgs. revert x rs.
    induction msgs as [|[hdrs host] msgs IH]; intros x rs R; inversion R as [|? st1 st2 ? ? c ? rs' C D R'|? st1 st2 ? ? c out ? bad rs' C D B R']; subst; [constructor| |];
      cbn [tool_compress] in C; apply bind_ok in C as ([x1 c1] & C1 & C); assert (st1 = POther O x1 /\ c = c1) as [-> ->] by (split; congruence);
      cbn [tool_decompress] in D; apply bind_ok in D as ([x2 od] & D1 & D); pose proof (H _ _ _ _ D1) as ->.
    - assert (st2 = POther O x2) as -> by congruence. constructor; [reflexivity|]. exact (IH _ _ R').
    - discriminate.
  Qed.

  Ltac same_spec H1 H2 := let Em := fresh in let Ep := fresh in
    match type of H1 with _ = Ok (?m, ?ps) => match type of H2 with _ = Ok (?m', ?ps') =>
      assert (m' = m /\ ps' = ps) as [Em Ep] by (split; congruence); subst m' ps' end end.

  Lemma suits_faithful n s : env_ok E -> suits n s -> forall m ps st, parse_spec n = Ok (m, ps) -> new m (sd_req s) ps = Ok st ->
    faithful (pstate O) comp dec m st (sd_msgs s).
  Proof.
    intros HE HS m ps st P N. destruct HS as [ps' P' HF|ps' P' HF|ps' a P' HA HW HB HF HD|ps' P' HF HL|ps' P' HF HL|ps' a o P' HA HC Ho HF|ps' a P' HA HC Hd HF|m' ps' P' Hm Ho];
      rewrite P' in P.
    - assert (m = lit "http1") as -> by congruence. assert (st = PHttp1 O (sd_req s)) as ->.
      { unfold tool_new in N. change (str_eqb (lit "http1") (lit "http1")) with true in N. cbv iota in N. congruence. }
      intros k rs R. eapply http1_faithful; [|exact R]. rewrite given_first. apply forall_first. exact HF.
    - assert (m = lit "http2") as -> by congruence. unfold tool_new in N. change (str_eqb (lit "http2") (lit "http1")) with false in N.
      change (str_eqb (lit "http2") (lit "http2")) with true in N. cbv iota in N. apply bind_ok in N as ([max r] & _ & N).
      assert (st = PHttp2 O max (init_encoder r, init_decoder r)) as -> by congruence.
      intros k rs R. eapply http2_faithful; [apply init_rel|apply init_good| |exact R]. rewrite given_first. now apply forall_first.
    - assert (m = lit "headerdiff" /\ ps = ps') as [-> ->] by (split; congruence). unfold tool_new in N.
      change (str_eqb (lit "headerdiff") (lit "http1")) with false in N. change (str_eqb (lit "headerdiff") (lit "http2")) with false in N.
      change (str_eqb (lit "headerdiff") (lit "headerdiff")) with true in N. cbv iota in N. rewrite HA in N. cbn [bind] in N. rewrite HW in N.
      assert (st = PHeaderdiff O (hd_cfg E (sd_req s) a) (sd_req s) (henc_new, hdec_new)) as -> by congruence.
      intros k rs R. eapply headerdiff_faithful; [apply (eo_hd_order E HE)| | | | |exact R].
      + unfold hd_cfg. destruct (ha_huffman a); [|apply plain_strings_ok]. apply C13_huffman_strings_ok, (eo_hd_codec E HE).
      + unfold hd_cfg. destruct (ha_huffman a); exact HB.
      + rewrite given_first. now apply forall_first.
      + rewrite given_first. intros x y Hx Hy Exy. apply HD; [| |exact Exy]; unfold all_headers, hd_msgs in *; rewrite <- ?firstn_map in *;
          apply in_flat_map; apply in_flat_map in Hx as (mx & Hx & Ix); apply in_flat_map in Hy as (my & Hy & Iy).
        * exists mx. split; [|exact Ix]. rewrite <- (firstn_skipn k). apply in_or_app. now left.
        * exists my. split; [|exact Iy]. rewrite <- (firstn_skipn k). apply in_or_app. now left.
    - assert (m = lit "delta2" /\ ps = ps') as [-> ->] by (split; congruence). pose proof N as N0. unfold tool_new in N.
      change (str_eqb (lit "delta2") (lit "http1")) with false in N. change (str_eqb (lit "delta2") (lit "http2")) with false in N.
      change (str_eqb (lit "delta2") (lit "headerdiff")) with false in N. change (str_eqb (lit "delta2") (lit "delta2")) with true in N. cbv iota in N.
      apply bind_ok in N as (o & _ & N). apply bind_ok in N as (p & Np & N). assert (st = PDelta2 O (sd_req s) 0 p) as -> by congruence.
      intros k rs R. eapply delta2_faithful; [apply (eo_d2_coder E HE)|apply (eo_d2_order E HE)|apply (eo_d2_refs E HE)| | |exact R|exact (HL _ k rs N0 R)].
      + destruct (proc_new_ok o p Np) as (kk & K & ->). split; cbn [p_comp p_decomp p_hosts p_ids]; [exact K|reflexivity|discriminate|split; reflexivity].
      + rewrite given_first. now apply forall_first.
    - assert (m = lit "delta" /\ ps = ps') as [-> ->] by (split; congruence). pose proof N as N0. unfold tool_new in N.
      change (str_eqb (lit "delta") (lit "http1")) with false in N. change (str_eqb (lit "delta") (lit "http2")) with false in N.
      change (str_eqb (lit "delta") (lit "headerdiff")) with false in N. change (str_eqb (lit "delta") (lit "delta2")) with false in N.
      change (str_eqb (lit "delta") (lit "delta")) with true in N. cbv iota in N.
      apply bind_ok in N as ([b e] & _ & N). assert (st = PDelta O (sd_req s) 0 (proc1_new (e_d1_name E) b e)) as -> by congruence.
      intros k rs R. eapply delta_faithful; [apply (eo_d1_coder E HE)|apply (eo_d1_groups E HE)|apply (eo_d1_order E HE)|apply (eo_d1_refs E HE)| | |exact R|exact (HL _ k rs N0 R)].
      + split; cbn [proc1_new p1_comp p1_decomp p1_hosts p1_ids]; [apply inv1_new|intros id z Hz; discriminate|reflexivity|discriminate|split; reflexivity].
      + rewrite given_first. now apply forall_first.
    - assert (m = lit "simple" /\ ps = ps') as [-> ->] by (split; congruence). unfold tool_new in N.
      change (str_eqb (lit "simple") (lit "http1")) with false in N. change (str_eqb (lit "simple") (lit "http2")) with false in N.
      change (str_eqb (lit "simple") (lit "headerdiff")) with false in N. change (str_eqb (lit "simple") (lit "delta2")) with false in N.
      change (str_eqb (lit "simple") (lit "delta")) with false in N. change (str_eqb (lit "simple") (lit "simple")) with true in N. cbv iota in N.
      rewrite HA in N. cbn [bind] in N. rewrite Ho in N. assert (st = PSimple O o 0 None None) as -> by congruence.
      assert (Eo : o_request o = sd_req s /\ (forall t, o_dec o (o_enc o t) = Ok t)).
      { unfold simple_opts in Ho. rewrite HC in Ho. assert (o = mk_s_opts (fun b => b) (fun b => Ok b) (sa_dates a) (e_date_in E) (e_date_out E) (sa_max a) (sd_req s)) as -> by congruence.
        split; reflexivity. }
      destruct Eo as [Eq Ed]. intros k rs R.
      eapply (simple_faithful E O other_compress other_decompress _ o (fun d => simple_message (sd_req s) d /\ dates_ok o d)); [apply (eo_simple_order E HE)| | | | | |exact R].
      + rewrite Eq. auto.
      + intros i lc d _ _. eexists. split; [apply Ed|now left].
      + rewrite given_first. now apply forall_first.
      + exact I.
      + exact I.
    - assert (m = lit "simple" /\ ps = ps') as [-> ->] by (split; congruence). unfold tool_new in N.
      change (str_eqb (lit "simple") (lit "http1")) with false in N. change (str_eqb (lit "simple") (lit "http2")) with false in N.
      change (str_eqb (lit "simple") (lit "headerdiff")) with false in N. change (str_eqb (lit "simple") (lit "delta2")) with false in N.
      change (str_eqb (lit "simple") (lit "delta")) with false in N. change (str_eqb (lit "simple") (lit "simple")) with true in N. cbv iota in N.
      rewrite HA in N. cbn [bind] in N. unfold simple_opts in N. rewrite HC, Hd in N.
      set (o := mk_s_opts seven_encode (fun b => Ok (seven_decode b)) false (e_date_in E) (e_date_out E) (sa_max a) (sd_req s)) in N.
      assert (st = PSimple O o 0 None None) as -> by congruence. intros k rs R.
      eapply (simple_faithful E O other_compress other_decompress _ o (fun d => simple_message (sd_req s) d /\ ascii_headers d)); [apply (eo_simple_order E HE)| | | | | |exact R].
      + intros d [H1 _]. split; [exact H1|]. intros kk v _ Hx. discriminate.
      + intros i lc d _ [H1 H2]. refine (seven_carries (sd_req s) (sa_max a) _ _ _); [|apply format_newline].
        apply wire_small; [apply (eo_simple_order E HE)|reflexivity|now apply (message_all_ok (sd_req s))|exact H2].
      + rewrite given_first. now apply forall_first.
      + exact I.
      + exact I.
    - assert (m' = m /\ ps' = ps) as [-> ->] by (split; congruence). unfold tool_new, other in N.
      destruct (str_eqb_spec m (lit "http1")) as [->|_]; [exfalso; apply Hm; cbn [In]; tauto|].
      destruct (str_eqb_spec m (lit "http2")) as [->|_]; [exfalso; apply Hm; cbn [In]; tauto|].
      destruct (str_eqb_spec m (lit "headerdiff")) as [->|_]; [exfalso; apply Hm; cbn [In]; tauto|].
      destruct (str_eqb_spec m (lit "delta2")) as [->|_]; [exfalso; apply Hm; cbn [In]; tauto|].
      destruct (str_eqb_spec m (lit "delta")) as [->|_]; [exfalso; apply Hm; cbn [In]; tauto|].
      destruct (str_eqb_spec m (lit "simple")) as [->|_]; [exfalso; apply Hm; cbn [In]; tauto|].
      apply bind_ok in N as (x & _ & N). assert (st = POther O x) as -> by congruence. now apply other_faithful.
  Qed.
End Tool.

(** Whatever the options and the files: if every stream suits every option,
    a report that is reached shows no difference, and the debugging option
    (which raises at the first difference) changes nothing, whether a report
    is reached or an exception. *)
Theorem C100_no_differences : forall E O other_new other_compress other_decompress ord streamify o files ss,
  is_order ord -> env_ok E -> all_sessions streamify files = Ok ss ->
  (forall n s, In n (names_of o) -> In s ss -> suits E O other_new other_compress other_decompress n s) ->
  let run := run (pstate O) (tool_new E O other_new) (tool_compress E O other_compress) (tool_decompress E O other_decompress) ord streamify in
  (forall rep, run o files = Ok rep -> forall r, In r (rep_sessions rep) -> forall texts, In texts (sr_mism r) -> texts = []) /\
  run (mkOpts (o_verbose o) true (o_names o) (o_baseline o) (o_tsv o)) files = run (mkOpts (o_verbose o) false (o_names o) (o_baseline o) (o_tsv o)) files.
Proof.
  intros E O onew ocomp odec ord streamify o files ss Ho HE Hs HS run.
  assert (HF : forall s, In s ss -> all_faithful _ (tool_new E O onew) (tool_compress E O ocomp) (tool_decompress E O odec) (names_of o) (sd_req s) (sd_msgs s)).
  { intros s Is n m ps st In_ P N. exact (suits_faithful E O onew ocomp odec n s HE (HS n s In_ Is) m ps st P N). }
  split.
  - intros rep R r Ir text It. destruct (run_clean _ (tool_new E O onew) (tool_compress E O ocomp) (tool_decompress E O odec) ord Ho streamify o files ss Hs HF) as [_ H].
    specialize (H rep R). rewrite Forall_forall in H. specialize (H r Ir). rewrite Forall_forall in H. symmetry. exact (H text It).
  - destruct (run_clean _ (tool_new E O onew) (tool_compress E O ocomp) (tool_decompress E O odec) ord Ho streamify
      (mkOpts (o_verbose o) true (o_names o) (o_baseline o) (o_tsv o)) files ss Hs HF) as [H _]. exact H.
Qed.
Print Assumptions C100_no_differences.

(** ** A run *)

(** Dictionaries in the order they were made, sets of group numbers in
    insertion order. *)
Definition plain_order : order := mk_order (fun l => l) (fun z => z) all_opcodes (fun z => z).
Definition plain_order1 : order1 := mk_order1 (fun l => l) (fun l => l) (fun l => l) (fun l => l).
Definition plain_env (hc : codec) (h2 h1 : huffman) : env :=
  mk_env 100 (fun _ l => l) (fun _ => hc) (fun h => h) (fun _ => h2) (fun _ => plain_order) (fun _ z => z)
    (fun _ => h1) (fun _ => plain_order1) (fun _ z => z) (lit "via") gels (fun _ d => d) (fun _ => None) (fun _ => None).

Lemma plain_env_ok hc h2 h1 : Prop_HDHuff.table_of hc -> coder h2 -> coder1 h1 -> env_ok (plain_env hc h2 h1).
Proof.
  intros A B C. split; cbn [plain_env e_hd_order e_hd_codec e_d2_coder e_d2_order e_d2_refs e_d1_coder e_d1_groups e_d1_order e_d1_refs e_simple_order]; auto.
  - intros t l. apply Permutation_refl.
  - intros _. split; intros; apply Permutation_refl.
  - intros hist. apply Permutation_refl.
  - intros _. split; intros; apply Permutation_refl.
  - intros i d. apply Permutation_refl.
Qed.

Definition tool_ask (p : string) : hdict :=
  [(lit ":method", lit "GET"); (lit ":scheme", lit "http"); (lit ":host", lit "h.com"); (lit ":path", lit p);
   (lit "accept", lit "*/*"); (lit "cookie", lit "a=1;b=2"); (lit "keep-alive", lit "300")].
Definition tool_answer (e : string) : hdict :=
  [(lit ":status", lit "200"); (lit ":status-text", lit "OK"); (lit "etag", lit e); (lit "set-cookie", lit "a" ++ [0] ++ lit "b")].
Definition tool_files : list (list exchange) := [[(tool_ask "/a", tool_answer "x1"); (tool_ask "/b", tool_answer "x1")]].
Definition tool_opts : opts := mkOpts false true [lit "http2"; lit "headerdiff=buffer=100"; lit "simple=seven"; lit "simple"; lit "spdy3"] None false.
Definition no_other (m : str) (q : bool) (ps : list str) : res unit := if str_eqb m (lit "spdy3") then Ok tt else Err ImportError.
Definition no_compress (m : str) (x : unit) (d : hdict) (host : str) : res (unit * str) := Ok (tt, flat_map snd d).
Definition no_decompress (m : str) (x : unit) (c : str) : res (unit * option hdict) := Ok (tt, None).
Definition tool_run (E : env) := run (pstate unit) (tool_new E unit no_other) (tool_compress E unit no_compress) (tool_decompress E unit no_decompress) (fun l => l) streamify_host.

(** Two exchanges, six processors, debugging on: the sizes of the requests and
    of the responses; one empty list of differences per message. *)
Example C100_example : forall hc h2 h1, match tool_run (plain_env hc h2 h1) tool_opts tool_files with
  | Ok rep => map (fun l => (l_proc l, l_size l)) (tr_lines (rep_req rep)) =
      [(lit "http1", 154); (lit "http2", 52); (lit "headerdiff (buffer=100)", 65); (lit "simple (seven)", 75); (lit "simple", 85); (lit "spdy3", 48)] /\
      map l_size (tr_lines (rep_res rep)) = [116; 27; 37; 41; 46; 16] /\ map sr_mism (rep_sessions rep) = [[[]; []]; [[]; []]]
  | Err _ => False
  end.
Proof. intros hc h2 h1. vm_compute. repeat split; reflexivity. Qed.

Lemma header_nameb k : negb (str_eqb k []) && forallb (fun c => negb ((65 <=? c) && (c <=? 90)) && negb (c =? 10)) k && negb (existsb (N.eqb 58) (tl k)) = true -> header_name k.
Proof.
  intros H. apply andb_true_iff in H as [H H3]. apply andb_true_iff in H as [H1 H2]. rewrite forallb_forall in H2.
  split; [intros ->; discriminate|]. split; [|split].
  - intros c Hc [A B]. specialize (H2 c Hc). apply N.leb_le in A, B. rewrite A, B in H2. discriminate.
  - intros Hc. specialize (H2 _ Hc). discriminate.
  - intros Hc. apply negb_true_iff in H3. assert (existsb (N.eqb 58) (tl k) = true); [|congruence]. apply existsb_exists. exists 58. auto.
Qed.
Lemma ordinary_headersb sp d :
  forallb (fun kv : str * str => mem_str (fst kv) sp || (let k := fst kv in negb (str_eqb k []) && forallb (fun c => negb ((65 <=? c) && (c <=? 90)) && negb (c =? 10)) k && negb (existsb (N.eqb 58) (tl k)))
    && forallb one_lineb (split_on 0 (snd kv))) d = true -> ordinary_headers sp d.
Proof.
  intros H k v Hin Hs. rewrite forallb_forall in H. specialize (H _ Hin). cbn [fst snd] in H.
  apply orb_true_iff in H as [H|H]; [exfalso; apply Hs; destruct (mem_str_spec k sp); [assumption|discriminate]|].
  apply andb_true_iff in H as [H1 H2]. split; [now apply header_nameb|]. intros x Hx. apply piece_of_split in Hx. rewrite forallb_forall in H2. apply one_lineb_ok. now apply H2.
Qed.

Lemma tool_ask_ok p : In p ["/a"; "/b"]%string -> let d := filter_headers (tool_ask p) in wf_request (lit "host") d /\ simple_message true d /\ ascii_headers d /\ blank_only d.
Proof.
  intros Hp d. assert (E : d = [(lit ":method", lit "GET"); (lit ":scheme", lit "http"); (lit ":host", lit "h.com"); (lit ":path", lit p); (lit "accept", lit "*/*"); (lit "cookie", lit "a=1;b=2")]).
  { unfold d. destruct Hp as [<- | [<- | []]]; vm_compute; reflexivity. }
  clearbody d. subst d. destruct Hp as [<- | [<- | []]].
  all: split; [|split; [|split]].
  all: try (apply blank_onlyb_ok; vm_compute; reflexivity).
  all: try (intros k v Hin; cbn [In] in Hin; repeat (destruct Hin as [Hin|Hin]; [injection Hin as <- <-; split; intros c Hc; vm_compute in Hc; repeat (destruct Hc as [<- | Hc]; [reflexivity|]); destruct Hc|]); destruct Hin).
  all: split; [repeat constructor; cbn; intuition discriminate|].
  all: split; [exists (lit "GET"); split; [cbn [In]; tauto|]; apply wordb; reflexivity|].
  all: split; [eexists; split; [right; right; right; left; reflexivity|]; apply wordb; reflexivity|].
  all: try (apply simple_headersb_ok; vm_compute; reflexivity).
  all: split; [intros v Hin; cbn in Hin; intuition discriminate|].
  all: split; [cbn; intuition discriminate|].
  all: apply ordinary_headersb; vm_compute; reflexivity.
Qed.

Lemma tool_answer_ok : let d := filter_headers (tool_answer "x1") in wf_response (lit "host") d /\ simple_message false d /\ ascii_headers d /\ blank_only d.
Proof.
  intros d. assert (E : d = [(lit ":status", lit "200"); (lit "etag", lit "x1"); (lit "set-cookie", lit "a" ++ [0] ++ lit "b")]) by (vm_compute; reflexivity).
  clearbody d. subst d. split; [|split; [|split]].
  all: try (apply blank_onlyb_ok; vm_compute; reflexivity).
  all: try (intros k v Hin; cbn [In] in Hin; repeat (destruct Hin as [Hin|Hin]; [injection Hin as <- <-; split; intros c Hc; vm_compute in Hc; repeat (destruct Hc as [<- | Hc]; [reflexivity|]); destruct Hc|]); destruct Hin).
  - split; [repeat constructor; cbn; intuition discriminate|]. split; [cbn; intuition discriminate|].
    split; [exists (lit "200"); split; [cbn [In]; tauto|]; apply wordb; reflexivity|]. split; [intros v Hin; cbn in Hin; intuition discriminate|].
    split; [intros v Hin; cbn in Hin; intuition discriminate|]. split; [cbn; intuition discriminate|]. split; [cbn; intuition discriminate|].
    apply ordinary_headersb; vm_compute; reflexivity.
  - split; [repeat constructor; cbn; intuition discriminate|]. split; [cbn; intuition discriminate|]. split; [cbn; intuition discriminate|].
    split; [exists (lit "200"); split; [cbn [In]; tauto|]; apply wordb; reflexivity|]. apply simple_headersb_ok; vm_compute; reflexivity.
Qed.

(** It meets the hypotheses. *)
Example C100_example_meets : exists E ss, env_ok E /\ is_order (fun l : list (str * str) => l) /\ all_sessions streamify_host tool_files = Ok ss /\ length ss = 2%nat /\
  forall n s, In n (names_of tool_opts) -> In s ss -> suits E unit no_other no_compress no_decompress n s.
Proof.
  destruct (new_codec request_stats) as [hc|] eqn:Ec.
  2:{ destruct (C13_huffman_strings request_stats) as (c & Ec' & _); [apply (table_facts request_stats); left; apply Permutation_refl| |congruence].
      apply (table_facts request_stats); [left; apply Permutation_refl|lia]. }
  destruct (shipped_coder d2_request_table (or_introl eq_refl)) as (h2 & _ & Hh2). destruct flat_some as (h1 & Hh1). apply flat_coder in Hh1.
  set (E := plain_env hc h2 h1). exists E.
  set (ss := [mkStream (lit "h.com") [(tool_ask "/a", lit "h.com"); (tool_ask "/b", lit "h.com")] true; mkStream (lit "h.com") [(tool_answer "x1", lit "h.com"); (tool_answer "x1", lit "h.com")] false]).
  exists ss.
  split; [apply plain_env_ok; [exists request_stats; split; [exact Ec|left; apply Permutation_refl]|exact Hh2|exact Hh1]|].
  split; [intros l; apply Permutation_refl|]. split; [vm_compute; reflexivity|]. split; [reflexivity|].
  intros n s Hn Hs. change (names_of tool_opts) with [lit "http1"; lit "http2"; lit "headerdiff=buffer=100"; lit "simple=seven"; lit "simple"; lit "spdy3"] in Hn.
  assert (G : Forall (fun d => (if sd_req s then wf_request (lit "host") d else wf_response (lit "host") d) /\ simple_message (sd_req s) d /\ ascii_headers d /\ blank_only d) (given s)).
  { destruct Hs as [<- | [<- | []]]; cbn [given sd_msgs sd_req map fst].
    - constructor; [apply (tool_ask_ok "/a"); cbn; tauto|]. constructor; [apply (tool_ask_ok "/b"); cbn; tauto|constructor].
    - constructor; [apply tool_answer_ok|]. constructor; [apply tool_answer_ok|constructor]. }
  rewrite Forall_forall in G.
  destruct Hn as [<- | [<- | [<- | [<- | [<- | [<- | []]]]]]].
  - eapply suits_http1; [vm_compute; reflexivity|]. apply Forall_forall. intros d Hd. apply G, Hd.
  - eapply suits_http2; [vm_compute; reflexivity|]. apply Forall_forall. intros d Hd. apply G, Hd.
  - eapply suits_headerdiff; [vm_compute; reflexivity|vm_compute; reflexivity|reflexivity|cbn; lia| |].
    + apply Forall_forall. intros d Hd. apply G, Hd.
    + destruct Hs as [<- | [<- | []]]; intros a b Ha Hb; vm_compute in Ha, Hb;
      repeat (destruct Ha as [<-|Ha]; [repeat (destruct Hb as [<-|Hb]; [solve [reflexivity|discriminate]|]); contradiction|]); contradiction.
  - eapply suits_simple_seven; [vm_compute; reflexivity|vm_compute; reflexivity|reflexivity|reflexivity|].
    apply Forall_forall. intros d Hd. split; apply G, Hd.
  - eapply suits_simple; [vm_compute; reflexivity|vm_compute; reflexivity|reflexivity|reflexivity|].
    apply Forall_forall. intros d Hd. split; [apply G, Hd|]. intros k v _ Hx. discriminate.
  - eapply suits_no_decompressor; [vm_compute; reflexivity| |].
    + vm_compute. intuition discriminate.
    + unfold no_decompress. congruence.
Qed.

(** Not so for every file the harness reads: a URL without a path
    (http://h.com) makes the whole run raise IndexError through the baseline,
    and a space at the end of a header's value that only str.strip() removes
    shows as a difference for http2. *)
Theorem C100_any_file_refuted : exists files1 files2, forall hc h2 h1, let E := plain_env hc h2 h1 in
  tool_run E (mkOpts false false [] None false) files1 = Err IndexError /\
  (exists rep r t ts, tool_run E (mkOpts false false [lit "http2"] None false) files2 = Ok rep /\ In r (rep_sessions rep) /\ In (t :: ts) (sr_mism r)) /\
  exists e, tool_run E (mkOpts false true [lit "http2"] None false) files2 = Err e.
Proof.
  exists [[([(lit ":method", lit "GET"); (lit ":scheme", lit "http"); (lit ":host", lit "h.com"); (lit ":path", [])], tool_answer "x1")]].
  exists [[(tool_ask "/a" ++ [(lit "x", lit "a" ++ [11])], tool_answer "x1")]]. intros hc h2 h1 E. split; [vm_compute; reflexivity|]. split.
  - unfold E. do 4 eexists. split; [vm_compute; reflexivity|]. split; [cbn [rep_sessions]; left; reflexivity|]. cbn [sr_mism]. left. reflexivity.
  - eexists. vm_compute. reflexivity.
Qed.
Print Assumptions C100_any_file_refuted.
