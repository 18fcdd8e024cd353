(** * Properties C33 - C40, C44, C45, C49: the harness in lib/. *)
From Coq Require Import String List NArith ZArith Bool Lia Permutation.
From Verif Require Import PyBase PyStr Lib_Model Lib_Spec Lib_Proofs Lib_Session.
Import ListNotations.
Open Scope N_scope.
Open Scope py_scope.

(** ** C33: the comparison.

    [same_content], [carries], [piece_of], [trimmed] are in Lib_Spec. *)
Theorem C33_compare_headers_verdict : forall ord a a_name b b_name,
  is_order ord ->
  (compare_headers ord a a_name b b_name = [] <-> same_content a b).
Proof. intros ord a an b bn Ho. now apply compare_verdict. Qed.
Print Assumptions C33_compare_headers_verdict.

(** Reflexive, symmetric verdict, insensitive to the order of the headers. *)
Theorem C33_compare_headers_equivalence : forall ord a b c n1 n2,
  is_order ord ->
  compare_headers ord a n1 a n2 = [] /\
  (compare_headers ord a n1 b n2 = [] -> compare_headers ord b n1 a n2 = []) /\
  (compare_headers ord a n1 b n2 = [] -> compare_headers ord b n1 c n2 = [] -> compare_headers ord a n1 c n2 = []) /\
  (Permutation a b -> compare_headers ord a n1 b n2 = []).
Proof.
  intros ord a b c n1 n2 Ho. rewrite !(compare_verdict ord) by exact Ho. unfold same_content.
  split; [tauto|]. split; [intros H k y Hk; symmetry; auto|]. split.
  - intros H1 H2 k y Hk. rewrite (H1 k y Hk). auto.
  - intros HP k y _. unfold carries. split; intros (v & x & Hin & H); exists v, x; (split; [|exact H]).
    + now apply (Permutation_in _ HP).
    + now apply (Permutation_in _ (Permutation_sym HP)).
Qed.
Print Assumptions C33_compare_headers_equivalence.

(** The differences that are listed are exactly the pieces one side carries
    and the other does not. *)
Theorem C33_compare_headers_lists_differences : forall a b k y,
  (In (k, y) (fst (compare_headers_impl a b compare_ignores)) <->
     ~ ignored_name k /\ carries a k y /\ ~ carries b k y) /\
  (In (k, y) (snd (compare_headers_impl a b compare_ignores)) <->
     ~ ignored_name k /\ carries b k y /\ ~ carries a k y).
Proof. exact impl_only. Qed.
Print Assumptions C33_compare_headers_lists_differences.

Example C33_example :
  let a := [(lit "cookie", lit "x=1; y=2"); (lit ":version", lit "HTTP/1.1"); (lit "a", lit "v")] in
  let b := [(lit "a", lit " v "); (lit "cookie", lit "y=2;x=1;x=1")] in
  compare_headers (fun l => l) a (lit "orig") b (lit "p") = [] /\
  compare_headers (fun l => l) a (lit "orig") [(lit "a", lit "v,")] (lit "p") <> [] /\
  carries a (lit "cookie") (lit "y=2").
Proof.
  split; [vm_compute; reflexivity|]. split; [vm_compute; discriminate|].
  apply carries_split. exists (lit "x=1; y=2"). split; [left; reflexivity|]. vm_compute. auto.
Qed.

(** ** C34: filtering. *)
Theorem C34_filter_headers_exact : forall d, is_dict d ->
  subseq (filter_headers d) d /\
  (forall k v, In (k, v) (filter_headers d) <-> In (k, v) d /\ ~ hop_by_hop d k) /\
  filter_headers (filter_headers d) = filter_headers d.
Proof.
  intros d H. destruct (filter_spec d H) as [A B]. split; [exact A|]. split; [exact B|]. now apply filter_idem.
Qed.
Print Assumptions C34_filter_headers_exact.

Example C34_example :
  filter_headers [(lit "a", lit "1"); (lit "connection", lit "close, a , te"); (lit "b", lit "2");
                  (lit "te", lit "x"); (lit ":version", lit "1.1")] = [(lit "b", lit "2")].
Proof. vm_compute. reflexivity. Qed.

(** ** C35: sessions.

    For every session that is processed without an exception, with
    processors of pairwise different display names one of which is the
    baseline: the sizes recorded for a processor are those of a freshly
    constructed object of that processor run on its own over the session's
    messages, one per message; mismatches are reported for exactly the
    messages whose content changed; the ratios are sizes over the baseline's
    sizes, and 1 for the baseline itself. *)
Theorem C35_sessions_isolated :
  forall St construct p_compress p_decompress ord baseline names sessions results,
  is_order ord ->
  NoDup (map (fun n => match parse_spec n with Ok (m, ps) => display_name m ps | Err _ => [] end) names) ->
  process_sessions St construct p_compress p_decompress ord false baseline names sessions = Ok results ->
  Forall2 (fun '(is_req, msgs) '(sizes, ratios, mism) =>
    forall n m ps, In n names -> parse_spec n = Ok (m, ps) ->
    (exists nb mb pb, In nb names /\ parse_spec nb = Ok (mb, pb) /\ display_name mb pb = baseline) ->
    exists st run, construct m is_req ps = Ok st /\
      solo_run St p_compress p_decompress m st msgs run /\
      length run = length msgs /\
      list_at sizes (display_name m ps) = map fst run /\
      (forall i, (i < length msgs)%nat ->
         (In (display_name m ps) (nth i mism []) <-> nth i (map snd run) false = true)) /\
      list_at ratios (display_name m ps) =
        (if str_eqb (display_name m ps) baseline then map (fun _ => (1, 1)) run
         else combine (map fst run) (list_at sizes baseline)))
    sessions results.
Proof.
  intros St construct p_compress p_decompress ord baseline names sessions results Ho HN.
  revert results. induction sessions as [|[is_req msgs] ss IH]; intros results E; cbn [process_sessions] in E.
  - injection E as <-. constructor.
  - apply bind_ok in E as ([[sizes ratios] mism] & E1 & E). apply bind_ok in E as (rs & E2 & E). injection E as <-.
    constructor; [|now apply IH]. intros n m ps Hin Hp (nb & mb & pb & Hinb & Hpb & Hdb).
    unfold process_session in E1. apply bind_ok in E1 as (procs & Eg & El).
    pose proof (get_processors_spec _ _ _ _ _ Eg) as HG.
    assert (Hnames : map (p_name _) procs = map (fun n => match parse_spec n with Ok (m, ps) => display_name m ps | Err _ => [] end) names).
    { clear -HG. induction HG as [|x p ns procs (m & ps & st & E1 & _ & ->) _ IH]; cbn; [reflexivity|]. rewrite E1, IH. reflexivity. }
    assert (HNp : NoDup (map (p_name _) procs)) by (rewrite Hnames; exact HN).
    assert (HBp : In baseline (map (p_name _) procs)).
    { rewrite Hnames. apply in_map_iff. exists nb. rewrite Hpb. auto. }
    destruct (session_loop_spec St p_compress p_decompress ord Ho _ _ _ _ _ _ _ _ _ _ HNp HBp El)
      as (runs & bads & HR & Em & HP).
    assert (HL : exists p run, In (p, run) (combine procs runs) /\ p_mod _ p = m /\ p_name _ p = display_name m ps /\
                 construct m is_req ps = Ok (p_st _ p) /\ solo_run St p_compress p_decompress m (p_st _ p) msgs run).
    { clear -HG HR Hin Hp. revert runs HR. induction HG as [|x p ns procs (m' & ps' & st & E1 & E2 & ->) _ IH]; intros runs HR; [destruct Hin|].
      inversion HR as [|? r ? rs Hr HR']; subst. destruct Hin as [->|Hin].
      - rewrite Hp in E1. injection E1 as <- <-. eexists _, r. split; [left; reflexivity|]. cbn. auto.
      - destruct (IH Hin _ HR') as (p & run & H1 & H2). exists p, run. split; [right; exact H1|exact H2]. }
    destruct HL as (p & run & Hpr & Hm & Hn & Hc & Hs).
    destruct (HP p run Hpr) as (P1 & P2 & P3 & P4 & base & P5 & P6). rewrite Hn in P1, P4, P6.
    exists (p_st _ p), run. split; [exact Hc|]. split; [exact Hs|]. split; [exact P2|]. split; [exact P1|]. split.
    + intros i Hi. rewrite Em. cbn [app]. now apply P4.
    + etransitivity; [exact P6|]. cbn [app list_at dget]. unfold ratios_of. rewrite P5. cbn [list_at dget app].
      destruct (str_eqb (display_name m ps) baseline); [now rewrite map_map|reflexivity].
Qed.
Print Assumptions C35_sessions_isolated.

(** Two toy processors: "id" sends name+value, "cnt" a growing counter and
    loses everything; two sessions. *)
Definition toy_compress (m : str) (st : N) (d : hdict) (host : str) : res (N * str) :=
  if str_eqb m (lit "id") then Ok (st, flat_map (fun kv => fst kv ++ snd kv) d)
  else Ok (st + 1, repeat 0 (N.to_nat st)).
Definition toy_decompress (m : str) (st : N) (s : str) : res (N * option hdict) :=
  if str_eqb m (lit "id") then Ok (st, None) else Ok (st, Some []).

Example C35_example :
  let run := process_sessions N (fun _ _ _ => Ok 5) toy_compress toy_decompress (fun l => l)
               false (lit "id") [lit "id"; lit "cnt"] in
  let m := ([(lit "a", lit "b"); (lit "connection", lit "c")], lit "h") in
  run [(true, [m; m]); (false, [m])] =
  Ok [([(lit "id", [2; 2]); (lit "cnt", [5; 6])],
       [(lit "id", [(1, 1); (1, 1)]); (lit "cnt", [(5, 2); (6, 2)])], [[lit "cnt"]; [lit "cnt"]]);
      ([(lit "id", [2]); (lit "cnt", [5])], [(lit "id", [(1, 1)]); (lit "cnt", [(5, 2)])], [[lit "cnt"]])].
Proof. vm_compute. reflexivity. Qed.

(** ** C36: a baseline given with parameters.

    Refuted, and not only for a witness: whenever the baseline option has a
    parameter part, no session with a message is ever processed without an
    exception, whatever the processors do.  (The module part of the option
    contains no parenthesis: it is a module name.) *)
Theorem C36_parameterised_baseline_never_works :
  forall St construct p_compress p_decompress ord debug baseline names is_req msgs m0 ps0 r,
  is_order ord ->
  split_once 61 baseline = (m0, Some ps0) -> ~ In 40 m0 ->
  In baseline names -> msgs <> [] ->
  NoDup (map (fun n => match parse_spec n with Ok (m, ps) => display_name m ps | Err _ => [] end) names) ->
  process_session St construct p_compress p_decompress ord debug baseline names is_req msgs <> Ok r.
Proof.
  intros St construct p_compress p_decompress ord debug baseline names is_req msgs m0 ps0 r Ho Hb Hm0 Hin Hne HN E.
  unfold process_session in E. apply bind_ok in E as (procs & Eg & El).
  pose proof (get_processors_spec _ _ _ _ _ Eg) as HG.
  destruct msgs as [|[hdrs host] msgs]; [congruence|]. cbn [session_loop] in El.
  apply bind_ok in El as ([[procs1 results] bad] & E1 & El). apply bind_ok in El as ([sizes1 ratios1] & E2 & _).
  assert (Hnames : map (p_name _) procs = map (fun n => match parse_spec n with Ok (m, ps) => display_name m ps | Err _ => [] end) names).
  { clear -HG. induction HG as [|x p ns procs (m & ps & st & E1 & _ & ->) _ IH]; cbn; [reflexivity|]. rewrite E1, IH. reflexivity. }
  apply (process_message_spec St p_compress p_decompress ord) in E1; [|now rewrite Hnames|intros n _ []].
  destruct E1 as (l & HF & _ & Er & _). cbn [app] in Er.
  assert (Hln : map (fun x => p_name _ (fst (fst x))) l = map (p_name _) procs).
  { clear -HF. induction HF as [|p [[p1 s] b] ps l E _ IH]; cbn; [reflexivity|].
    destruct (process_one_name St _ _ _ _ _ _ _ _ _ _ E) as [-> _]. now rewrite IH. }
  assert (Hk : keys results = map (p_name _) procs) by (rewrite Er; unfold keys; rewrite map_map; exact Hln).
  assert (HD : is_dict results) by (unfold is_dict; rewrite Hk, Hnames; exact HN).
  destruct (record_spec baseline results results [] [] _ _ HD E2) as (_ & _ & HC).
  assert (Hnot : ~ In baseline (keys results)).
  { rewrite Hk. intros Hi. apply in_map_iff in Hi as (p & Ep & Hp).
    assert (exists n, exists m ps st, parse_spec n = Ok (m, ps) /\ p = mkProc St m (display_name m ps) st) as (n & m & ps & st & E3 & ->).
    { clear -HG Hp. induction HG as [|x q ns procs (m & ps & st & E1 & _ & ->) _ IH]; [destruct Hp|].
      destruct Hp as [<-|Hp]; [exists x, m, ps, st; auto|auto]. }
    cbn in Ep. exact (display_name_no_raw n m ps baseline m0 ps0 E3 Hb Hm0 Ep). }
  assert (Hsome : exists k s, In (k, s) results).
  { destruct names as [|n ns]; [destruct Hin|]. inversion HG as [|? p ? ps]; subst. cbn in Hk.
    destruct (map (fun x => (p_name St (fst (fst x)), snd (fst x))) l) as [|[k s] res]; [discriminate|].
    exists k, s. now left. }
  destruct Hsome as (k & s & Hks).
  apply (HC k s Hks).
  - intros ->. apply Hnot. apply (in_map fst) in Hks. exact Hks.
  - apply dget_none. exact Hnot.
Qed.
Print Assumptions C36_parameterised_baseline_never_works.

Theorem C36_parameterised_baseline_refuted :
  exists baseline names msgs,
    In baseline names /\
    process_session N (fun _ _ _ => Ok 5) toy_compress toy_decompress (fun l => l)
      false baseline names true msgs = Err KeyError.
Proof.
  exists (lit "id=x"), [lit "id=x"], [([(lit "a", lit "b")], lit "h")].
  split; [now left|]. vm_compute. reflexivity.
Qed.
Print Assumptions C36_parameterised_baseline_refuted.

(** ** C37: streamifiers.

    [key]: how a host names its stream; [shown]: the host stored with the
    messages.  The streams come in request/response pairs, one pair per
    name, with different names; the pair of a name carries exactly the
    exchanges whose host has that name, in the original order on both sides,
    and all pairs together carry every exchange exactly once. *)
Theorem C37_grouping_partitions : forall key shown messages streams,
  group_streamify key shown messages = Ok streams ->
  exists groups : list (str * list exchange),
    streams = flat_map (fun '(n, xs) =>
      [mkStream n (map (fun x => (fst x, shown_host shown x)) xs) true;
       mkStream n (map (fun x => (snd x, shown_host shown x)) xs) false]) groups /\
    NoDup (map fst groups) /\
    Forall (fun '(n, xs) => xs <> [] /\ subseq xs messages /\
              Forall (fun x => exists h, dget (fst x) (lit ":host") = Some h /\ key h = n) xs) groups /\
    Permutation (flat_map snd groups) messages.
Proof.
  intros key shown messages streams E. unfold group_streamify in E.
  apply bind_ok in E as ([[names reqs] ress] & E & Es). injection Es as <-.
  apply (group_loop_spec key shown messages []) in E; try (cbn; auto; fail).
  2: constructor.
  2:{ intros k. cbn. tauto. }
  cbn [app] in E. destruct E as (A & B & C & D & F).
  exists (map (fun n => (n, with_key key n messages)) names). split; [|split; [|split]].
  - clear -D F. induction names as [|n ns IH]; cbn [map flat_map]; [reflexivity|]. rewrite D, F, IH. reflexivity.
  - rewrite map_map. cbn. rewrite map_id. exact B.
  - apply Forall_forall. intros [n xs] Hin. apply in_map_iff in Hin as (n' & [= <- <-] & Hn).
    split; [now apply C|]. split; [apply subseq_filter|]. apply Forall_forall. intros x Hx.
    apply filter_In in Hx as [_ Hx]. unfold host_key in Hx. cbv beta in Hx.
    match type of Hx with context [option_map key ?d] => destruct d as [h|] eqn:Eg end; cbn [option_map] in Hx; [|discriminate Hx].
    exists h. split; [exact Eg|]. destruct (str_eqb_spec n' (key h)); congruence.
  - replace (flat_map snd (map (fun n => (n, with_key key n messages)) names))
      with (flat_map (fun n => with_key key n messages) names).
    + apply partition_perm; [exact B|]. intros x Hx. rewrite Forall_forall in A. specialize (A x Hx).
      destruct (host_key key x) as [k|] eqn:Ek; [|congruence]. exists k. split; [reflexivity|].
      apply C. intros E0. assert (Hi : In x (with_key key k messages)); [|rewrite E0 in Hi; destruct Hi].
      apply filter_In. split; [exact Hx|]. rewrite Ek. apply str_eqb_refl.
    + clear. induction names as [|n ns IH]; cbn; [reflexivity|]. now rewrite IH.
Qed.
Print Assumptions C37_grouping_partitions.

(** host.py and public_suffix.py are instances (for every public suffix
    function); all_one.py keeps everything in one pair. *)
Corollary C37_host_streams : forall messages streams,
  streamify_host messages = Ok streams ->
  exists groups : list (str * list exchange),
    streams = flat_map (fun '(n, xs) => [mkStream n (map (fun x => (fst x, n)) xs) true;
                                         mkStream n (map (fun x => (snd x, n)) xs) false]) groups /\
    NoDup (map fst groups) /\
    Forall (fun '(n, xs) => xs <> [] /\ subseq xs messages) groups /\
    Permutation (flat_map snd groups) messages.
Proof.
  intros messages streams E. destruct (C37_grouping_partitions _ _ _ _ E) as (groups & -> & A & B & C).
  exists groups. split; [|split; [exact A|split; [|exact C]]].
  - clear -B. induction B as [|[n xs] gs (_ & _ & H) _ IH]; cbn [flat_map]; [reflexivity|]. rewrite IH. f_equal.
    assert (HM : forall f : exchange -> hdict,
       map (fun x => (f x, shown_host (fun h => strip is_space (lower h)) x)) xs = map (fun x => (f x, n)) xs).
    { intros f. clear -H. induction H as [|x xs (h & Eh & Ek) _ IHx]; cbn [map]; [reflexivity|]. rewrite IHx.
      unfold shown_host, exchange, hdict in *. rewrite Eh, Ek. reflexivity. }
    now rewrite !HM.
  - eapply Forall_impl; [|exact B]. intros [n xs] (H1 & H2 & _). auto.
Qed.
Print Assumptions C37_host_streams.

Theorem C37_all_one : forall messages streams,
  streamify_all_one messages = Ok streams ->
  exists hosts, length hosts = length messages /\
    streams = [mkStream (lit "all") (combine (map fst messages) hosts) true;
               mkStream (lit "all") (combine (map snd messages) hosts) false].
Proof.
  intros messages streams E. unfold streamify_all_one in E. apply bind_ok in E as ([reqs ress] & E & Es).
  injection Es as <-.
  assert (G : forall ms rq rs rq' rs', all_one_loop ms rq rs = Ok (rq', rs') ->
            exists hosts, length hosts = length ms /\ rq' = rq ++ combine (map fst ms) hosts /\ rs' = rs ++ combine (map snd ms) hosts).
  { induction ms as [|[a b] ms IH]; intros rq rs rq' rs' H; cbn [all_one_loop] in H.
    - injection H as <- <-. exists []. cbn. now rewrite !app_nil_r.
    - destruct (dget a (lit ":host")) as [h|]; [|discriminate]. apply IH in H as (hosts & Hl & -> & ->).
      exists (h :: hosts). cbn. rewrite <- !app_assoc. auto. }
  apply G in E as (hosts & Hl & -> & ->). exists hosts. auto.
Qed.
Print Assumptions C37_all_one.

Definition ex_rq (h p : string) : hdict := [(lit ":host", lit h); (lit ":path", lit p)].
Definition ex_rs (s : string) : hdict := [(lit ":status", lit s)].

Example C37_example :
  streamify_host [(ex_rq "A.com" "/1", ex_rs "200"); (ex_rq "b.com" "/2", ex_rs "404"); (ex_rq "a.com " "/3", ex_rs "500")] =
  Ok [mkStream (lit "a.com") [(ex_rq "A.com" "/1", lit "a.com"); (ex_rq "a.com " "/3", lit "a.com")] true;
      mkStream (lit "a.com") [(ex_rs "200", lit "a.com"); (ex_rs "500", lit "a.com")] false;
      mkStream (lit "b.com") [(ex_rq "b.com" "/2", lit "b.com")] true;
      mkStream (lit "b.com") [(ex_rs "404", lit "b.com")] false].
Proof. vm_compute. reflexivity. Qed.

(** ** C38: totals.

    For sessions of one direction with their own message lists: the TOTAL
    has, per processor, the concatenation of the sessions' sizes and ratios,
    and all their messages. *)
Theorem C38_total_is_sum : forall (M : Type) (s : store M) t ids,
  ids <> [] ->
  Forall (fun id => exists o, nth_error (s_objs s) id = Some o /\ wf_obj M s o /\ st_type o = t) ids ->
  NoDup (map (fun id => option_map st_msgs (nth_error (s_objs s) id)) ids) ->
  exists s' n o, total_stream M s ids = Ok (s', n) /\ nth_error (s_objs s') n = Some o /\
    st_name o = lit "TOTAL" /\ st_type o = t /\
    msgs_of M s' n = flat_map (msgs_of M s) ids /\
    (forall p, list_at (st_sizes o) p = flat_map (fun id => list_at (sizes_of M s id) p) ids) /\
    (forall p, list_at (st_ratios o) p = flat_map (fun id => list_at (ratios_at M s id) p) ids).
Proof.
  intros M s t ids Hne HF HN. destruct ids as [|i ids]; [congruence|].
  inversion HF as [|? ? (o & Ho & Hw & Ht) HF']; subst. cbn [map] in HN. inversion HN as [|? ? Hnot HN']; subst.
  rewrite Ho in Hnot. cbn in Hnot.
  assert (HF2 : Forall (fun id => exists o', nth_error (s_objs s) id = Some o' /\ wf_obj M s o' /\ st_type o' = st_type o /\ st_msgs o' <> st_msgs o) ids).
  { apply Forall_forall. intros id Hid. rewrite Forall_forall in HF'. destruct (HF' id Hid) as (o' & A & B & C).
    exists o'. repeat split; auto; try apply B. intros Em. apply Hnot. apply in_map_iff. exists id. rewrite A. cbn. now rewrite Em. }
  destruct (reduce_spec M (st_type o) ids s i o Ho Hw eq_refl HF2)
    as (s' & n & o' & E & _ & _ & _ & Hn & Hm & Hty & _ & _ & HMs & HS & HR).
  cbn [total_stream]. rewrite E. cbn [bind].
  eexists _, n, (mkStrm (lit "TOTAL") (st_msgs o') (st_type o') (st_sizes o') (st_ratios o')).
  split; [reflexivity|]. cbn [s_objs]. rewrite nth_error_update_same, Hn. cbn [option_map].
  split; [reflexivity|]. split; [reflexivity|]. split; [exact Hty|]. split; [|split].
  - unfold msgs_of at 1. cbn [s_objs]. rewrite nth_error_update_same, Hn. cbn [option_map st_msgs s_lists].
    rewrite Hm, HMs. cbn [flat_map]. f_equal. unfold msgs_of. now rewrite Ho.
  - intros p. cbn [st_sizes flat_map]. rewrite HS. f_equal. unfold sizes_of. now rewrite Ho.
  - intros p. cbn [st_ratios flat_map]. rewrite HR. f_equal. unfold ratios_at. now rewrite Ho.
Qed.
Print Assumptions C38_total_is_sum.

(** With at least two sessions the session objects themselves (names,
    results) are untouched, and so are the message lists of all but the
    first. *)
Theorem C38_sessions_unchanged_except_first_messages : forall (M : Type) (s : store M) t i ids s' n,
  ids <> [] ->
  Forall (fun id => exists o, nth_error (s_objs s) id = Some o /\ wf_obj M s o /\ st_type o = t) (i :: ids) ->
  NoDup (map (fun id => option_map st_msgs (nth_error (s_objs s) id)) (i :: ids)) ->
  total_stream M s (i :: ids) = Ok (s', n) ->
  (forall id, (id < length (s_objs s))%nat -> nth_error (s_objs s') id = nth_error (s_objs s) id) /\
  (forall id, In id ids -> msgs_of M s' id = msgs_of M s id) /\
  msgs_of M s' i = flat_map (msgs_of M s) (i :: ids).
Proof.
  intros M s t i ids s' n Hne HF HN E.
  inversion HF as [|? ? (o & Ho & Hw & Ht) HF']; subst. cbn [map] in HN. inversion HN as [|? ? Hnot HN']; subst.
  rewrite Ho in Hnot. cbn in Hnot.
  assert (HF2 : Forall (fun id => exists o', nth_error (s_objs s) id = Some o' /\ wf_obj M s o' /\ st_type o' = st_type o /\ st_msgs o' <> st_msgs o) ids).
  { apply Forall_forall. intros id Hid. rewrite Forall_forall in HF'. destruct (HF' id Hid) as (o' & A & B & C).
    exists o'. repeat split; auto; try apply B. intros Em. apply Hnot. apply in_map_iff. exists id. rewrite A. cbn. now rewrite Em. }
  destruct (reduce_spec M (st_type o) ids s i o Ho Hw eq_refl HF2)
    as (s1 & n1 & o' & E1 & (news & Enews) & Hn1 & _ & Hn & Hm & Hty & _ & HO & HMs & HS & HR).
  cbn [total_stream] in E. rewrite E1 in E. cbn [bind] in E. injection E as <- <-.
  specialize (Hn1 Hne).
  assert (Hobj : forall id, (id < length (s_objs s))%nat ->
     nth_error (update_nth n1 (fun o => mkStrm (lit "TOTAL") (st_msgs o) (st_type o) (st_sizes o) (st_ratios o)) (s_objs s1)) id
     = nth_error (s_objs s) id).
  { intros id Hid. rewrite nth_error_update_other by lia. rewrite Enews, nth_error_app1 by exact Hid. reflexivity. }
  split; [exact Hobj|]. split.
  - intros id Hid. rewrite Forall_forall in HF2. destruct (HF2 id Hid) as (o2 & H2 & _ & _ & Hm2).
    unfold msgs_of. cbn [s_objs s_lists]. rewrite Hobj by (apply nth_error_Some; congruence). rewrite H2. now apply HO.
  - unfold msgs_of at 1. cbn [s_objs s_lists]. rewrite Hobj by (apply nth_error_Some; congruence). rewrite Ho, HMs.
    cbn [flat_map]. f_equal. unfold msgs_of. now rewrite Ho.
Qed.
Print Assumptions C38_sessions_unchanged_except_first_messages.

(** Refuted: sessions are changed - a single session is renamed, and with
    two sessions the first one's message list grows. *)
Definition two_sessions : store N :=
  mkStore [[1; 2]; [3]]
    [mkStrm (lit "a.com") 0 true [(lit "http1", [10; 20])] [(lit "http1", [(1, 1); (1, 1)])];
     mkStrm (lit "b.com") 1 true [(lit "http1", [30])] [(lit "http1", [(1, 1)])]].

Theorem C38_sessions_intact_refuted :
  (exists s' n, total_stream N two_sessions [0%nat] = Ok (s', n) /\
     option_map st_name (nth_error (s_objs s') 0) = Some (lit "TOTAL")) /\
  (exists s' n, total_stream N two_sessions [0%nat; 1%nat] = Ok (s', n) /\
     msgs_of N two_sessions 0 = [1; 2] /\ msgs_of N s' 0 = [1; 2; 3]).
Proof. split; do 2 eexists; (split; [vm_compute; reflexivity|]); vm_compute; auto. Qed.
Print Assumptions C38_sessions_intact_refuted.

Example C38_example :
  Forall (fun id => exists o, nth_error (s_objs two_sessions) id = Some o /\ wf_obj N two_sessions o /\ st_type o = true) [0%nat; 1%nat] /\
  NoDup (map (fun id => option_map st_msgs (nth_error (s_objs two_sessions) id)) [0%nat; 1%nat]) /\
  exists s' n, total_stream N two_sessions [0%nat; 1%nat] = Ok (s', n) /\
    list_at (sizes_of N s' n) (lit "http1") = [10; 20; 30].
Proof.
  split; [|split].
  - repeat constructor; eexists; (split; [reflexivity|]); (split; [|reflexivity]); repeat split; cbn; try lia;
      repeat constructor; cbn; tauto.
  - cbn. repeat constructor; cbn; intuition discriminate.
  - do 2 eexists. split; vm_compute; reflexivity.
Qed.

(** ** C39: HAR header lists.

    [values_of k hs]: the values of the headers whose normalised name is
    [k], in order. *)
Theorem C39_process_headers_exact : forall hs,
  match process_headers hs with
  | Ok out => is_dict out /\ Forall (fun h => fst h <> []) hs /\
      (forall k, dget out k = match values_of k hs with [] => None | vs => Some (join [0] vs) end)
  | Err e => e = GenericException /\ Exists (fun h => fst h = []) hs
  end.
Proof.
  intros hs. pose proof (process_headers_spec hs) as H. destruct (process_headers hs) as [out|e]; [|exact H].
  destruct H as (A & B & C). split; [exact A|]. split; [exact B|]. intros k. rewrite C. unfold joined.
  destruct (values_of k hs); reflexivity.
Qed.
Print Assumptions C39_process_headers_exact.

Example C39_example :
  process_headers [(lit "Host", lit "h"); (lit "Set-Cookie", lit "a"); (lit "X", lit ""); (lit "set-cookie", lit "b")] =
  Ok [(lit ":host", lit "h"); (lit "set-cookie", lit "a" ++ [0] ++ lit "b"); (lit "x", lit "")].
Proof. vm_compute. reflexivity. Qed.

(** ** C40: the Host header of a request.

    Refuted: the URL wins, for every request. *)
Theorem C40_url_always_overrides_host_header : forall urlsplit es reqs ress,
  har2hdrs urlsplit es = Ok (reqs, ress) ->
  exists used, subseq used es /\
    Forall2 (fun rq e => dget rq (lit ":host") = Some (host_of_url (h_url e))) reqs used.
Proof.
  intros urlsplit es reqs ress E. unfold har2hdrs in E.
  assert (G : forall es rq rs rq' rs', har_loop urlsplit es rq rs = Ok (rq', rs') ->
     exists used new, subseq used es /\ rq' = rq ++ new /\
       Forall2 (fun rq e => dget rq (lit ":host") = Some (host_of_url (h_url e))) new used).
  { clear. induction es as [|e es IH]; intros rq rs rq' rs' E; cbn [har_loop] in E.
    - injection E as <- <-. exists [], []. rewrite app_nil_r. split; [constructor|]. auto.
    - apply bind_ok in E as ([[scheme path] query] & _ & E). destruct (mem_str (lower scheme) _).
      + apply bind_ok in E as (q & Eq & E). apply bind_ok in E as (r & Er & E).
        apply IH in E as (used & new & H1 & -> & H2). exists (e :: used), (q :: new).
        split; [now constructor|]. split; [now rewrite <- app_assoc|]. constructor; [|exact H2].
        exact (har_request_host (h_url e) _ _ _ _ _ _ Eq eq_refl).
      + apply IH in E as (used & new & H1 & H2). exists used, new. split; [now constructor|exact H2]. }
  apply G in E as (used & new & H1 & -> & H2). exists used. auto.
Qed.
Print Assumptions C40_url_always_overrides_host_header.

Definition demo_urlsplit (u : str) : res (str * str * str) := Ok (lit "http", lit "/", []).
Definition demo_entry : har_entry :=
  mkHar (lit "http://10.0.0.1/") (lit "GET") (lit "HTTP/1.1") [(lit "Host", lit "www.example.com")]
        (lit "200") [] (lit "HTTP/1.1") [].

Theorem C40_host_header_used_refuted :
  exists urlsplit e rq rs, In (lit "Host", lit "www.example.com") (h_req_headers e) /\
    har2hdrs urlsplit [e] = Ok ([rq], [rs]) /\
    dget rq (lit ":host") = Some (lit "10.0.0.1").
Proof.
  exists demo_urlsplit, demo_entry. do 2 eexists. split; [now left|]. split; vm_compute; reflexivity.
Qed.
Print Assumptions C40_host_header_used_refuted.

(** ** C44: requests and responses of a HAR file stay paired.

    The two lists have the same length, and their k-th elements come from
    the same HAR entry; the entries left out are exactly those whose scheme
    is neither http nor https. *)
Theorem C44_har_pairs : forall urlsplit es reqs ress,
  har2hdrs urlsplit es = Ok (reqs, ress) ->
  let used := filter (fun e => match urlsplit (h_url e) with
                               | Ok (scheme, _, _) => mem_str (lower scheme) [lit "http"; lit "https"]
                               | Err _ => false end) es in
  length reqs = length used /\ length ress = length used /\
  Forall2 (fun e rq => dget rq (lit ":method") = Some (lower (h_method e)) /\
                       dget rq (lit ":version") = Some (h_req_version e)) used reqs /\
  Forall2 (fun e rs => dget rs (lit ":status") = Some (status_digits (h_status e)) /\
                       dget rs (lit ":version") = Some (h_res_version e)) used ress.
Proof.
  intros urlsplit es reqs ress E. cbn zeta. unfold har2hdrs in E.
  set (f := fun e => match urlsplit (h_url e) with Ok (scheme, _, _) => _ | Err _ => false end).
  assert (G : forall es rq rs rq' rs', har_loop urlsplit es rq rs = Ok (rq', rs') ->
     exists q r, rq' = rq ++ q /\ rs' = rs ++ r /\
       Forall2 (fun e rq => dget rq (lit ":method") = Some (lower (h_method e)) /\
                       dget rq (lit ":version") = Some (h_req_version e)) (filter f es) q /\
       Forall2 (fun e rs => dget rs (lit ":status") = Some (status_digits (h_status e)) /\
                       dget rs (lit ":version") = Some (h_res_version e)) (filter f es) r).
  { clear. induction es as [|e es IH]; intros rq rs rq' rs' E; cbn [har_loop] in E.
    - injection E as <- <-. exists [], []. rewrite !app_nil_r. cbn. auto.
    - apply bind_ok in E as ([[scheme path] query] & Eu & E). cbn [filter].
      assert (Hf : f e = mem_str (lower scheme) [lit "http"; lit "https"]) by (unfold f; now rewrite Eu). rewrite !Hf.
      destruct (mem_str (lower scheme) [lit "http"; lit "https"]).
      + apply bind_ok in E as (q & Eq & E). apply bind_ok in E as (r & Er & E).
        apply IH in E as (qs & rs2 & -> & -> & H1 & H2). exists (q :: qs), (r :: rs2).
        rewrite <- !app_assoc. split; [reflexivity|]. split; [reflexivity|].
        unfold har_request in Eq. apply bind_ok in Eq as (h & _ & Eq).
        unfold har_response in Er. apply bind_ok in Er as (h' & _ & Er).
        assert (Hn : existsb (str_is_dict (lit ":host")) rq = false) by (clear; induction rq; cbn; auto).
        rewrite Hn in Eq. cbn [negb] in Eq.
        split; constructor; auto.
        * match type of Eq with Ok ?x = _ => assert (Eq' : q = x) by congruence end. rewrite Eq'.
          rewrite !dget_dset. split; vm_compute; reflexivity.
        * match type of Er with Ok ?x = _ => assert (Er' : r = x) by congruence end. rewrite Er'.
          rewrite !dget_dset. split; [|vm_compute; reflexivity].
          repeat match goal with |- context [str_eqb ?a ?b] => let v := eval vm_compute in (str_eqb a b) in change (str_eqb a b) with v; cbv iota end.
          reflexivity.
      + now apply IH in E. }
  destruct (G _ _ _ _ _ E) as (q & r & Eq & Er & H1 & H2). cbn [app] in Eq, Er. rewrite Eq, Er.
  split; [symmetry; eapply Forall2_length; exact H1|]. split; [symmetry; eapply Forall2_length; exact H2|]. auto.
Qed.
Print Assumptions C44_har_pairs.

Example C44_example :
  let split u := Ok (fst (split_once 58 u), lit "/", @nil N) in
  let e u s := mkHar (lit u) (lit "GET") (lit "HTTP/1.1") [] (lit s) [] (lit "HTTP/1.1") [] in
  match har2hdrs split [e "http://a/" "200"; e "data:x" "0"; e "HTTPS://b/" "404"]%string with
  | Ok (reqs, ress) => length reqs = 2%nat /\ map (fun d => dget d (lit ":status")) ress = [Some (lit "200"); Some (lit "404")]
  | Err _ => False
  end.
Proof. vm_compute. auto. Qed.

(** ** C49: what a converted entry carries.

    What repeated header lines become is C39; here, which fields are added and
    with which values, and that all others are those of the header lines. *)
Definition request_fields (scheme path query : str) (e : har_entry) (k : str) : option str :=
  if str_eqb k (lit ":method") then Some (lower (h_method e))
  else if str_eqb k (lit ":path") then Some (path ++ match query with [] => [] | _ => lit "?" ++ query end)
  else if str_eqb k (lit ":scheme") then Some (lower scheme)
  else if str_eqb k (lit ":version") then Some (h_req_version e)
  else if str_eqb k (lit ":host") then Some (host_of_url (h_url e))
  else None.
Definition response_fields (e : har_entry) (k : str) : option str :=
  if str_eqb k (lit ":status") then Some (status_digits (h_status e))
  else if str_eqb k (lit ":version") then Some (h_res_version e)
  else None.
Definition trimmed_text (e : har_entry) : str := strip is_space (h_status_text e).

Theorem C49_har_fields : forall urlsplit e rq rs,
  har2hdrs urlsplit [e] = Ok ([rq], [rs]) ->
  exists scheme path query hq hs,
    urlsplit (h_url e) = Ok (scheme, path, query) /\
    process_headers (h_req_headers e) = Ok hq /\ process_headers (h_res_headers e) = Ok hs /\
    (forall k, dget rq k = match request_fields scheme path query e k with Some v => Some v | None => dget hq k end) /\
    (forall k, k <> lit ":status-text" -> dget rs k = match response_fields e k with Some v => Some v | None => dget hs k end) /\
    (trimmed_text e <> [] -> dget rs (lit ":status-text") = Some (trimmed_text e)).
Proof.
  intros urlsplit e rq rs E. unfold har2hdrs in E. cbn [har_loop] in E.
  apply bind_ok in E as ([[scheme path] query] & Eu & E). destruct (mem_str (lower scheme) [lit "http"; lit "https"]); [|discriminate].
  apply bind_ok in E as (q & Eq & E). apply bind_ok in E as (r & Er & E). cbn [app] in E. injection E as -> ->.
  unfold har_request in Eq. apply bind_ok in Eq as (hq & Hq & Eq). unfold har_response in Er. apply bind_ok in Er as (hs & Hs & Er).
  exists scheme, path, query, hq, hs. split; [exact Eu|]. split; [exact Hq|]. split; [exact Hs|].
  cbn [existsb negb] in Eq. cbv zeta in Eq, Er.
  match type of Eq with Ok ?x = _ => assert (Eq' : rq = x) by congruence end.
  match type of Er with Ok ?x = _ => assert (Er' : rs = x) by congruence end. clear Eq Er. split; [|split].
  - intros k. rewrite Eq', !dget_dset. unfold request_fields.
    destruct (str_eqb_spec k (lit ":host")) as [->|N1]; [vm_compute; reflexivity|].
    destruct (str_eqb_spec k (lit ":version")) as [->|N2]; [vm_compute; reflexivity|].
    destruct (str_eqb_spec k (lit ":scheme")) as [->|N3]; [vm_compute; reflexivity|].
    destruct (str_eqb_spec k (lit ":path")) as [->|N4].
    { change (str_eqb (lit ":path") (lit ":method")) with false. destruct query; [now rewrite app_nil_r|reflexivity]. }
    destruct (str_eqb_spec k (lit ":method")); reflexivity.
  - intros k Hk. rewrite Er', !dget_dset. unfold response_fields.
    destruct (str_eqb_spec k (lit ":version")) as [->|N1]; [vm_compute; reflexivity|].
    destruct (str_eqb_spec k (lit ":status-text")) as [->|N2]; [congruence|].
    destruct (str_eqb_spec k (lit ":status")); reflexivity.
  - intros Hne. rewrite Er', !dget_dset. unfold trimmed_text in *. change (str_eqb (lit ":status-text") (lit ":version")) with false.
    rewrite str_eqb_refl. destruct (strip is_space (h_status_text e)); [congruence|reflexivity].
Qed.
Print Assumptions C49_har_fields.

Example C49_example :
  let split u := Ok (lit "HTTP", lit "/p", lit "q=1") in
  let e := mkHar (lit "HTTP://a:8/p?q=1") (lit "GET") (lit "HTTP/1.1") [(lit "Accept", lit "x"); (lit "accept", lit "y")] (lit "200") (lit " OK ") (lit "HTTP/1.0") [] in
  match har2hdrs split [e] with
  | Ok ([rq], [rs]) => dget rq (lit ":path") = Some (lit "/p?q=1") /\ dget rq (lit ":scheme") = Some (lit "http") /\
      dget rq (lit ":host") = Some (lit "a:8") /\ dget rq (lit "accept") = Some (lit "x" ++ [0] ++ lit "y") /\ dget rs (lit ":status-text") = Some (lit "OK")
  | _ => False
  end.
Proof. vm_compute. repeat split. Qed.

(** ** C45: the :host taken from the URL is its authority part. *)
Theorem C45_host_of_url_is_authority : forall scheme auth rest,
  ~ In 58 scheme -> ~ In 47 auth -> ~ In 10 rest ->
  host_of_url (scheme ++ lit "://" ++ auth ++ lit "/" ++ rest) = auth.
Proof.
  intros scheme auth rest H1 H2 H3. unfold host_of_url.
  change (lit "://" ++ auth ++ lit "/" ++ rest) with (58 :: 47 :: 47 :: (auth ++ 47 :: rest)).
  rewrite split_once_app by exact H1. cbn [N.eqb Pos.eqb andb]. rewrite split_once_app by exact H2.
  unfold url_rest_ok. rewrite split_once_none by exact H3. now rewrite app_nil_r.
Qed.
Print Assumptions C45_host_of_url_is_authority.

(** A final newline stays behind the authority, and every other text without
    that shape is left as it is. *)
Theorem C45_final_newline : forall scheme auth rest,
  ~ In 58 scheme -> ~ In 47 auth -> ~ In 10 rest ->
  host_of_url (scheme ++ lit "://" ++ auth ++ lit "/" ++ rest ++ [10]) = auth ++ [10].
Proof.
  intros scheme auth rest H1 H2 H3. unfold host_of_url.
  change (lit "://" ++ auth ++ lit "/" ++ rest ++ [10]) with (58 :: 47 :: 47 :: (auth ++ 47 :: rest ++ [10])).
  rewrite split_once_app by exact H1. cbn [N.eqb Pos.eqb andb]. rewrite split_once_app by exact H2.
  unfold url_rest_ok. now rewrite split_once_app by exact H3.
Qed.
Print Assumptions C45_final_newline.

Lemma split_once_inv c s : match split_once c s with (x, Some y) => s = x ++ c :: y /\ ~ In c x | (x, None) => x = s /\ ~ In c s end.
Proof.
  induction s as [|x s IH]; cbn [split_once]; [split; [reflexivity|intros []]|].
  destruct (N.eqb_spec x c) as [->|N]; [split; [reflexivity|intros []]|]. destruct (split_once c s) as [p [q|]].
  - destruct IH as [-> IH]. split; [reflexivity|]. intros [C|C]; [now apply N|contradiction].
  - destruct IH as [-> IH]. split; [reflexivity|]. intros [C|C]; [now apply N|contradiction].
Qed.

Theorem C45_other_urls : forall url,
  (forall scheme auth rest tail, ~ In 58 scheme -> ~ In 47 auth -> ~ In 10 rest -> tail = [] \/ tail = [10] ->
     url <> scheme ++ lit "://" ++ auth ++ lit "/" ++ rest ++ tail) -> host_of_url url = url.
Proof.
  intros url H. unfold host_of_url. pose proof (split_once_inv 58 url) as I1.
  destruct (split_once 58 url) as [scheme [[|s1 [|s2 r]]|]]; try reflexivity. destruct I1 as [E1 N1].
  destruct (N.eqb_spec s1 47) as [->|]; [|reflexivity]. destruct (N.eqb_spec s2 47) as [->|]; [|reflexivity]. cbn [andb].
  pose proof (split_once_inv 47 r) as I2. destruct (split_once 47 r) as [auth [rest|]]; [|reflexivity]. destruct I2 as [-> N2].
  unfold url_rest_ok. pose proof (split_once_inv 10 rest) as I3. destruct (split_once 10 rest) as [line [[|x y]|]]; [|reflexivity|]; exfalso; destruct I3 as [E3 N3].
  - subst rest. apply (H scheme auth line [10] N1 N2 N3); [now right|]. rewrite E1. reflexivity.
  - apply (H scheme auth rest [] N1 N2 N3); [now left|]. rewrite E1, app_nil_r. reflexivity.
Qed.
Print Assumptions C45_other_urls.

(** Refuted for a URL without a path: the whole URL becomes the :host. *)
Theorem C45_host_of_url_without_path_refuted :
  host_of_url (lit "http://example.com") = lit "http://example.com" /\
  host_of_url (lit "http://example.com?q=/x") = lit "example.com?q=".
Proof. vm_compute. auto. Qed.
Print Assumptions C45_host_of_url_without_path_refuted.

Example C45_example : host_of_url (lit "https://user@example.com:8080/a/b?c=http://x/") = lit "user@example.com:8080" /\
  host_of_url (lit "a://b/c" ++ [10]) = lit "b" ++ [10] /\ host_of_url (lit "a://b/c" ++ [10] ++ lit "d") = lit "a://b/c" ++ [10] ++ lit "d".
Proof. vm_compute. auto. Qed.
