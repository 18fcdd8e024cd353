(** * When a run completes: lemmas for C78 and C79. *)
From Coq Require Import String List NArith ZArith QArith Bool Lia Permutation.
From Verif Require Import PyBase PyStr Lib_Model Lib_Spec Lib_Proofs Lib_Session Prop_Lib Run_Model Run_Proofs Run_Total Run_Report.
Import ListNotations.
Open Scope N_scope.
Open Scope py_scope.

Section Complete.
  Variable St : Type.
  Variable construct : str -> bool -> list str -> res St.
  Variable p_compress : str -> St -> hdict -> str -> res (St * str).
  Variable p_decompress : str -> St -> str -> res (St * option hdict).
  Variable ord : list (str * str) -> list (str * str).
  Hypothesis Ho : is_order ord.

  Notation solo := (solo_run St p_compress p_decompress).
  Notation Alone := (alone St construct p_compress p_decompress).

  (** A processor alone gives one sequence of sizes. *)
  Lemma solo_unique m : forall st msgs r1, solo m st msgs r1 -> forall r2, solo m st msgs r2 -> map fst r1 = map fst r2.
  Proof.
    intros st msgs r1 H. induction H as [|st st1 st2 hdrs host c msgs rs C D H IH|st st1 st2 hdrs host c d msgs bad rs C D B H IH]; intros r2 H2.
    - inversion H2; subst. reflexivity.
    - inversion H2 as [|? st1' st2' ? ? c' ? rs' C' D' H'|? st1' st2' ? ? c' d' ? bad' rs' C' D' B' H']; subst;
        (assert (st1' = st1 /\ c' = c) as [-> ->] by (split; congruence); assert (st2' = st2) as -> by congruence);
        cbn [map fst]; f_equal; auto.
    - inversion H2 as [|? st1' st2' ? ? c' ? rs' C' D' H'|? st1' st2' ? ? c' d' ? bad' rs' C' D' B' H']; subst;
        (assert (st1' = st1 /\ c' = c) as [-> ->] by (split; congruence); assert (st2' = st2) as -> by congruence);
        cbn [map fst]; f_equal; auto.
  Qed.

  Lemma alone_unique n t ss a b : Alone n t ss a -> Alone n t ss b -> a = b.
  Proof.
    intros (m & ps & ra & E1 & F1 & ->) (m' & ps' & rb & E2 & F2 & ->).
    assert (m' = m /\ ps' = ps) as [-> ->] by (split; congruence). clear E1 E2.
    revert rb F2. induction F1 as [|s r ss ra (_ & st & C1 & S1) _ IH]; intros rb F2; inversion F2 as [|? r' ? rb' (_ & st' & C2 & S2) F2']; subst; [reflexivity|].
    cbn [concat]. rewrite !map_app. f_equal; [|auto]. assert (st' = st) as -> by congruence. eapply solo_unique; eauto.
  Qed.

  (** ** Processing cannot raise *)
  Variable o : opts.
  Hypothesis HN : NoDup (map shown (names_of o)).
  Hypothesis HB : In (baseline_of o) (map shown (names_of o)).
  Hypothesis no_debug : o_debug o = false.
  Hypothesis constructs : Forall (fun n => exists m ps, parse_spec n = Ok (m, ps) /\ forall t, exists st, construct m t ps = Ok st) (names_of o).
  Hypothesis compresses : forall m st d h, exists st' c, p_compress m st d h = Ok (st', c).
  Hypothesis decompresses : forall m st s, exists st' d, p_decompress m st s = Ok (st', d).
  Hypothesis base_size : forall n m ps st d h st' c, In n (names_of o) -> shown n = baseline_of o -> parse_spec n = Ok (m, ps) ->
    p_compress m st d h = Ok (st', c) -> c <> [].

  Notation process_one := (process_one St p_compress p_decompress ord).
  Notation process_message := (process_message St p_compress p_decompress ord).
  Notation session_loop := (session_loop St p_compress p_decompress ord).
  Notation process_session := (process_session St construct p_compress p_decompress ord).
  Notation run_sessions := (run_sessions St construct p_compress p_decompress ord).

  Lemma process_one_total hdrs host p : exists p' sz bad, process_one false hdrs host p = Ok (p', sz, bad).
  Proof.
    unfold Lib_Model.process_one. destruct (compresses (p_mod _ p) (p_st _ p) (filter_headers hdrs) host) as (st & c & ->). cbn [bind].
    destruct (decompresses (p_mod _ p) st c) as (st' & [d|] & ->); cbn [bind]; [destruct (compare_headers _ _ _ _ _)|]; eauto.
  Qed.

  Lemma process_message_total hdrs host : forall procs results mism, exists x, process_message false procs hdrs host results mism = Ok x.
  Proof.
    induction procs as [|p procs IH]; intros results mism; cbn [Lib_Model.process_message]; [eauto|].
    destruct (process_one_total hdrs host p) as (p' & sz & bad & ->). cbn [bind].
    destruct (IH (dset results (p_name _ p') sz) (if bad then mism ++ [p_name _ p'] else mism)) as ([[ps r] ms] & ->). cbn [bind]. eauto.
  Qed.

  Lemma record_total base results b : dget results base = Some b -> b <> 0 ->
    forall todo sizes ratios, exists x, record_results base results todo sizes ratios = Ok x.
  Proof.
    intros Eb Hb. induction todo as [|[n s] todo IH]; intros sizes ratios; cbn [record_results]; [eauto|].
    rewrite Eb. destruct (str_eqb n base); cbn [bind]; [apply IH|]. destruct b; [congruence|]. cbn [bind]. apply IH.
  Qed.

  (** The processors in use: names as given, one of them the baseline's. *)
  Definition ready (procs : list (proc St)) : Prop :=
    NoDup (map (p_name _) procs) /\
    exists p, In p procs /\ p_name _ p = baseline_of o /\
      exists n ps, In n (names_of o) /\ shown n = baseline_of o /\ parse_spec n = Ok (p_mod _ p, ps).

  Lemma process_one_size hdrs host p p' sz bad : process_one false hdrs host p = Ok (p', sz, bad) ->
    exists st' c, p_compress (p_mod _ p) (p_st _ p) (filter_headers hdrs) host = Ok (st', c) /\ sz = lenN c.
  Proof.
    unfold Lib_Model.process_one. intros E. apply bind_ok in E as ([st c] & E1 & E). apply bind_ok in E as ([st2 d] & _ & E).
    exists st, c. split; [exact E1|]. destruct d; [destruct (compare_headers _ _ _ _ _)|]; congruence.
  Qed.

  Lemma session_loop_total : forall msgs procs sizes ratios mism, ready procs ->
    exists x, session_loop false (baseline_of o) procs msgs sizes ratios mism = Ok x.
  Proof.
    induction msgs as [|[hdrs host] msgs IH]; intros procs sizes ratios mism (ND & p & Hp & Hpn & n & ps & Hn1 & Hn2 & Hn3);
      cbn [Lib_Model.session_loop]; [eauto|].
    destruct (process_message_total hdrs host procs [] []) as ([[procs1 results] bad] & E1). rewrite E1. cbn [bind].
    apply (process_message_spec St p_compress p_decompress ord) in E1; [|exact ND|intros k _ []]. destruct E1 as (l & HF & -> & Er & _).
    cbn [app] in Er.
    assert (Hln : map (fun x => p_name _ (fst (fst x))) l = map (p_name _) procs).
    { clear -HF. induction HF as [|p [[p1 s] b] ps l E _ IH]; cbn; [reflexivity|].
      destruct (process_one_name St _ _ _ _ _ _ _ _ _ _ E) as [-> _]. now rewrite IH. }
    assert (Hx : exists p1 sz b, In (p1, sz, b) l /\ process_one false hdrs host p = Ok (p1, sz, b)).
    { clear -HF Hp. induction HF as [|q [[p1 s] b] qs l E _ IH]; [destruct Hp|]. destruct Hp as [->|Hp].
      - exists p1, s, b. split; [now left|exact E].
      - destruct (IH Hp) as (p2 & s2 & b2 & A & B). exists p2, s2, b2. split; [now right|exact B]. }
    destruct Hx as (p1 & sz & b & Hin & E2). destruct (process_one_name St _ _ _ _ _ _ _ _ _ _ E2) as [N1 N2].
    destruct (process_one_size _ _ _ _ _ _ E2) as (st' & c & Ec & ->).
    assert (HD : is_dict results).
    { unfold is_dict. rewrite Er. unfold keys. rewrite map_map. cbn [fst]. rewrite Hln. exact ND. }
    assert (Hb : dget results (baseline_of o) = Some (lenN c)).
    { apply in_dget; [exact HD|]. rewrite Er. apply in_map_iff. exists (p1, lenN c, b). cbn [fst snd]. split; [|exact Hin]. now rewrite N1, Hpn. }
    destruct (record_total _ _ _ Hb) with (todo := results) (sizes := sizes) (ratios := ratios) as ([sizes1 ratios1] & E3).
    { pose proof (base_size _ _ _ _ _ _ _ _ Hn1 Hn2 Hn3 Ec) as Hc. destruct c; [congruence|]. unfold lenN. cbn [length]. lia. }
    rewrite E3. cbn [bind]. apply IH. split.
    - rewrite map_map. rewrite Hln. exact ND.
    - exists p1. split; [apply in_map_iff; exists (p1, lenN c, b); auto|]. split; [congruence|].
      exists n, ps. rewrite N2. auto.
  Qed.

  Lemma get_processors_total t : forall names, incl names (names_of o) ->
    exists procs, get_processors St construct t names = Ok procs /\ map (p_name _) procs = map shown names /\
      forall n, In n names -> exists p ps, In p procs /\ p_name _ p = shown n /\ parse_spec n = Ok (p_mod _ p, ps).
  Proof.
    induction names as [|n names IH]; intros Hi; cbn [get_processors].
    - exists []. repeat split. intros n [].
    - rewrite Forall_forall in constructs. destruct (constructs n (Hi n (or_introl eq_refl))) as (m & ps & Ep & Hc).
      destruct (Hc t) as (st & Ec). rewrite Ep. cbn [bind]. rewrite Ec. cbn [bind].
      destruct IH as (procs & -> & E1 & E2); [intros x Hx; apply Hi; now right|]. cbn [bind].
      eexists. split; [reflexivity|]. cbn [map p_name]. unfold shown at 1. rewrite Ep, E1. split; [reflexivity|].
      intros n' [<-|Hn].
      + eexists _, ps. split; [now left|]. cbn [p_name p_mod]. unfold shown. rewrite Ep. auto.
      + destruct (E2 n' Hn) as (p & ps' & A & B). exists p, ps'. split; [now right|exact B].
  Qed.

  Lemma process_session_total t msgs : exists x, process_session (o_debug o) (baseline_of o) (names_of o) t msgs = Ok x.
  Proof.
    rewrite no_debug. unfold Lib_Model.process_session.
    destruct (get_processors_total t (names_of o) (incl_refl _)) as (procs & -> & E1 & E2). cbn [bind].
    apply session_loop_total. split; [rewrite E1; exact HN|].
    apply in_map_iff in HB. destruct HB as (n & En & Hn). destruct (E2 n Hn) as (p & ps & A & B & C).
    exists p. split; [exact A|]. split; [congruence|]. exists n, ps. auto.
  Qed.

  Lemma construct_all_total : forall names, incl names (names_of o) -> construct_all St construct names = Ok (map shown names).
  Proof.
    induction names as [|n names IH]; intros Hi; cbn [construct_all map]; [reflexivity|].
    rewrite Forall_forall in constructs. destruct (constructs n (Hi n (or_introl eq_refl))) as (m & ps & Ep & Hc).
    destruct (Hc true) as (a & Ea). destruct (Hc false) as (b & Eb). rewrite Ep. cbn [bind]. rewrite Ea. cbn [bind]. rewrite Eb. cbn [bind].
    rewrite IH by (intros x Hx; apply Hi; now right). cbn [bind]. unfold shown. now rewrite Ep.
  Qed.

  (** ** Summaries cannot raise when there are messages *)
  Lemma summary_total b obj : 0 < sum_sizes (list_at (st_sizes obj) (baseline_of o)) ->
    (forall n, In n (names_of o) -> list_at (st_sizes obj) (shown n) <> [] /\ list_at (st_ratios obj) (shown n) <> []) ->
    exists ls, print_summary b obj (baseline_of o) (map shown (names_of o)) = Ok ls.
  Proof.
    intros Hpos H. unfold print_summary, lookup_list.
    assert (Hb : exists l, dget (st_sizes obj) (baseline_of o) = Some l /\ 0 < sum_sizes l).
    { unfold list_at in Hpos. destruct (dget (st_sizes obj) (baseline_of o)) as [l|]; [eauto|]. cbn in Hpos. lia. }
    destruct Hb as (l & -> & Hl). cbn [bind]. revert H. generalize (names_of o). induction l0 as [|n ns IH]; intros H; cbn [map summary_lines]; [eauto|].
    destruct (H n (or_introl eq_refl)) as [H1 H2].
    destruct (summary_line_total b obj (sum_sizes l) (shown n) Hl) as (x & ->); auto.
    { unfold list_at in H1. intros Z. rewrite Z in H1. congruence. }
    cbn [bind]. destruct IH as (ls & ->); [intros n' Hn'; apply H; now right|]. cbn [bind]. eauto.
  Qed.

  (** Sizes of the baseline are above 0. *)
  Lemma solo_pos n m ps : In n (names_of o) -> shown n = baseline_of o -> parse_spec n = Ok (m, ps) ->
    forall st msgs run, solo m st msgs run -> Forall (fun x => 0 < fst x) run.
  Proof.
    intros H1 H2 H3 st msgs run H. induction H as [|st st1 st2 hdrs host c msgs rs C D H IH|st st1 st2 hdrs host c d msgs bad rs C D B H IH];
      constructor; auto; cbn [fst]; pose proof (base_size _ _ _ _ _ _ _ _ H1 H2 H3 C); destruct c; try congruence; unfold lenN; cbn [length]; lia.
  Qed.

  Lemma sum_pos l : l <> [] -> Forall (fun x => 0 < x) l -> 0 < sum_sizes l.
  Proof. intros Hn H. destruct H; [congruence|]. rewrite sum_cons. lia. Qed.

  (** What the results of a session with messages look like. *)
  Lemma session_lists t msgs sizes ratios mism :
    process_session (o_debug o) (baseline_of o) (names_of o) t msgs = Ok (sizes, ratios, mism) ->
    Forall (fun x => 0 < x) (list_at sizes (baseline_of o)) /\
    forall n, In n (names_of o) -> length (list_at sizes (shown n)) = length msgs /\ length (list_at ratios (shown n)) = length msgs.
  Proof.
    intros E. destruct (session_facts St construct p_compress p_decompress ord Ho _ _ _ _ _ _ _ _ E HN HB) as (_ & _ & _ & F).
    assert (Hpar : forall n, In n (names_of o) -> exists m ps, parse_spec n = Ok (m, ps) /\ shown n = display_name m ps).
    { intros n Hn. rewrite Forall_forall in constructs. destruct (constructs n Hn) as (m & ps & Ep & _). exists m, ps.
      unfold shown. rewrite Ep. auto. }
    assert (Hbase : exists n, shown n = baseline_of o /\ In n (names_of o)) by (apply in_map_iff in HB; exact HB).
    destruct Hbase as (nb & Eb & Hnb). destruct (Hpar nb Hnb) as (mb & pb & Epb & Esb).
    destruct (F nb mb pb Hnb Epb) as (st & run & C1 & C2 & C3 & C4 & _). rewrite <- Esb, Eb in C4.
    split.
    - rewrite C4. pose proof (solo_pos nb mb pb Hnb Eb Epb _ _ _ C2) as HP. clear -HP. induction HP; constructor; auto.
    - intros n Hn. destruct (Hpar n Hn) as (m & ps & Ep & Es). destruct (F n m ps Hn Ep) as (st' & run' & _ & _ & D3 & D4 & D5 & _).
      rewrite <- Es in D4, D5. rewrite D4, D5, map_length. split; [exact D3|]. unfold ratios_spec.
      destruct (str_eqb (shown n) (baseline_of o)); [now rewrite !map_length|]. etransitivity; [apply combine_length|]. rewrite C4, !map_length. lia.
  Qed.

  Lemma run_sessions_total : forall ss k, (o_verbose o = true -> Forall (fun s => sd_msgs s <> []) ss) ->
    exists objs reps, run_sessions o (map shown (names_of o)) k ss = Ok (objs, reps).
  Proof.
    induction ss as [|s ss IH]; intros k Hv; cbn [Run_Model.run_sessions]; [eauto|].
    destruct (process_session_total (sd_req s) (sd_msgs s)) as ([[sizes ratios] mism] & E). rewrite E. cbn [bind].
    destruct (IH (S k)) as (objs & reps & ->); [intros H; specialize (Hv H); now inversion Hv|].
    destruct (o_verbose o) eqn:Ev; [|cbn [bind]; eauto].
    specialize (Hv eq_refl). inversion Hv as [|? ? Hs _]; subst.
    destruct (session_lists _ _ _ _ _ E) as [P1 P2].
    destruct (summary_total true (mkStrm (sd_name s) k (sd_req s) sizes ratios)) as (ls & ->).
    - cbn [st_sizes]. apply sum_pos; [|exact P1]. destruct (in_map_iff shown (names_of o) (baseline_of o)) as [Hi _].
      destruct (Hi HB) as (n & En & Hn). destruct (P2 n Hn) as [L _]. rewrite En in L. intros Z. rewrite Z in L.
      destruct (sd_msgs s); [congruence|discriminate].
    - intros n Hn. cbn [st_sizes st_ratios]. destruct (P2 n Hn) as [L1 L2].
      split; intros Z; [rewrite Z in L1|rewrite Z in L2]; (destruct (sd_msgs s); [congruence|discriminate]).
    - cbn [bind]. eauto.
  Qed.
End Complete.

(** The totals of a direction with messages. *)
Lemma print_total_total o procs ss t objs st :
  proper ss objs -> holds t ss objs st -> of_dir t ss <> [] ->
  (forall b obj,
     (forall p, list_at (st_sizes obj) p = flat_map (fun id => list_at (sizes_of st id) p) (places t 0 ss)) ->
     (forall p, list_at (st_ratios obj) p = flat_map (fun id => list_at (ratios_at st id) p) (places t 0 ss)) ->
     exists ls, print_summary b obj (baseline_of o) procs = Ok ls) ->
  exists st' tr, print_total o procs ss t st = Ok (st', tr).
Proof.
  intros HP HH Hne HS. unfold print_total.
  assert (Hobj : forall i, In i (places t 0 ss) -> exists s o, nth_error ss i = Some s /\ sd_req s = t /\
     nth_error (s_objs st) i = Some o /\ wf_obj _ st o /\ st_type o = t /\ st_msgs o = i).
  { intros i Hi. apply places_in in Hi. rewrite Nat.sub_0_r in Hi. destruct Hi as (_ & s & Es & Ht).
    destruct (h_at _ _ _ _ HH i s Es Ht) as [A _]. destruct (HP i s Es) as (o' & B & C & D & _ & F & G).
    exists s, o'. split; [exact Es|]. split; [exact Ht|]. split; [now rewrite A|]. split; [|split; [now rewrite D|exact C]].
    split; [|auto]. rewrite C, (h_lists _ _ _ _ HH). apply nth_error_Some. congruence. }
  pose proof (places_nodup t ss 0) as ND. pose proof (places_length t ss 0) as PL.
  destruct (places t 0 ss) as [|i ids] eqn:Eids.
  { destruct (of_dir t ss); [congruence|discriminate]. }
  unfold total_stream.
  destruct (Hobj i) as (si & oi & Esi & Hti & Eoi & Wi & Tyi & Mi); [now left|].
  inversion ND as [|? ? Hni ND']; subst x l.
  assert (HF : Forall (fun id => exists o', nth_error (s_objs st) id = Some o' /\ wf_obj _ st o' /\ st_type o' = t /\ st_msgs o' <> st_msgs oi) ids).
  { apply Forall_forall. intros id Hid. destruct (Hobj id) as (s' & o' & A & B & C & D & F & G); [now right|].
    exists o'. repeat split; auto; try apply D. rewrite Mi, G. intros ->. contradiction. }
  destruct (reduce_spec _ t ids st i oi Eoi Wi Tyi HF)
    as (s3 & n3 & o3 & E3 & _ & _ & _ & Hn & _ & _ & _ & _ & _ & HS3 & HR3).
  rewrite E3. cbn [bind s_objs s_lists]. rewrite nth_error_update_same, Hn. cbn [option_map].
  destruct (HS (n3 <? length ss)%nat (total_named o3)) as (ls & E).
  - intros p. cbn [total_named st_sizes]. rewrite HS3. cbn [flat_map]. f_equal. unfold Lib_Session.sizes_of. now rewrite Eoi.
  - intros p. cbn [total_named st_ratios]. rewrite HR3. cbn [flat_map]. f_equal. unfold Lib_Session.ratios_at. now rewrite Eoi.
  - unfold total_named in E. rewrite E. cbn [bind]. eauto.
Qed.
