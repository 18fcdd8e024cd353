(** * When the harness reports nothing: the part that holds for all processors. *)
From Coq Require Import String List NArith ZArith Bool Lia Permutation.
From Verif Require Import PyBase PyStr Lib_Model Lib_Spec Lib_Proofs Run_Model.
Import ListNotations.
Open Scope N_scope.
Open Scope py_scope.

Section Clean.
  Variable St : Type.
  Variable construct : str -> bool -> list str -> res St.
  Variable p_compress : str -> St -> hdict -> str -> res (St * str).
  Variable p_decompress : str -> St -> str -> res (St * option hdict).
  Variable ord : list (str * str) -> list (str * str).
  Hypothesis Hord : is_order ord.

  Notation solo := (solo_run St p_compress p_decompress).
  Notation proc := (proc St).
  Notation process_one := (process_one St p_compress p_decompress ord).
  Notation process_message := (process_message St p_compress p_decompress ord).
  Notation session_loop := (session_loop St p_compress p_decompress ord).
  Notation get_processors := (get_processors St construct).
  Notation process_session := (process_session St construct p_compress p_decompress ord).

  (** Alone, the processor gives back every message of every beginning of the session it gets through. *)
  Definition faithful (m : str) (st : St) (msgs : list (hdict * str)) : Prop :=
    forall k rs, solo m st (firstn k msgs) rs -> Forall (fun r => snd r = false) rs.

  Lemma faithful_step m st hdrs host msgs st1 c st2 od : faithful m st ((hdrs, host) :: msgs) ->
    p_compress m st (filter_headers hdrs) host = Ok (st1, c) -> p_decompress m st1 c = Ok (st2, od) ->
    match od with None => True | Some d => same_content (filter_headers hdrs) d end /\ faithful m st2 msgs.
  Proof.
    intros F E1 E2. split.
    - destruct od as [d|]; [|exact I].
      assert (D : compare_headers ord (filter_headers hdrs) [] d [] = [] \/ compare_headers ord (filter_headers hdrs) [] d [] <> [])
        by (destruct (compare_headers ord (filter_headers hdrs) [] d []); [now left|right; discriminate]).
      destruct D as [D|D]; [now apply (compare_verdict ord _ [] _ [] Hord)|].
      specialize (F 1%nat [(lenN c, true)]). cbn [firstn] in F. exfalso.
      assert (A : Forall (fun r : N * bool => snd r = false) [(lenN c, true)]).
      { apply F. eapply solo_dec; [exact E1|exact E2| |apply solo_nil]. split; [discriminate|]. intros S.
        exfalso. apply D. now apply compare_verdict. }
      inversion A as [|? ? A1 _]. discriminate A1.
    - intros k rs Hrs. destruct od as [d|].
      + destruct (compare_headers ord (filter_headers hdrs) [] d []) eqn:Ec.
        * specialize (F (S k) ((lenN c, false) :: rs)). cbn [firstn] in F.
          assert (A : Forall (fun r : N * bool => snd r = false) ((lenN c, false) :: rs)).
          { apply F. eapply solo_dec; [exact E1|exact E2| |exact Hrs]. split; [|reflexivity]. intros _. now apply (compare_verdict ord _ [] _ [] Hord). }
          now inversion A.
        * specialize (F (S k) ((lenN c, true) :: rs)). cbn [firstn] in F.
          assert (A : Forall (fun r : N * bool => snd r = false) ((lenN c, true) :: rs)).
          { apply F. eapply solo_dec; [exact E1|exact E2| |exact Hrs]. split; [discriminate|]. intros S. exfalso.
            apply (compare_verdict ord _ [] _ [] Hord) in S. congruence. }
          now inversion A.
      + specialize (F (S k) ((lenN c, false) :: rs)). cbn [firstn] in F.
        assert (A : Forall (fun r : N * bool => snd r = false) ((lenN c, false) :: rs)) by (apply F; eapply solo_nodec; eauto).
        now inversion A.
  Qed.

  Lemma process_one_clean debug hdrs host msgs p : faithful (p_mod _ p) (p_st _ p) ((hdrs, host) :: msgs) ->
    process_one debug hdrs host p = process_one false hdrs host p /\
    forall p' n bad, process_one debug hdrs host p = Ok (p', n, bad) -> bad = false /\ faithful (p_mod _ p') (p_st _ p') msgs.
  Proof.
    intros F. unfold Lib_Model.process_one. cbv zeta.
    destruct (p_compress (p_mod _ p) (p_st _ p) (filter_headers hdrs) host) as [[st1 c]|e] eqn:E1; cbn [bind]; [|split; [reflexivity|discriminate]].
    destruct (p_decompress (p_mod _ p) st1 c) as [[st2 od]|e] eqn:E2; cbn [bind]; [|split; [reflexivity|discriminate]].
    destruct (faithful_step _ _ _ _ _ _ _ _ _ F E1 E2) as [S F2]. destruct od as [d|].
    - apply (proj2 (compare_verdict ord _ (lit "orig") _ (p_name _ p) Hord)) in S. rewrite S. split; [reflexivity|].
      intros p' n bad E. injection E as <- <- <-. split; [reflexivity|exact F2].
    - split; [reflexivity|]. intros p' n bad E. injection E as <- <- <-. split; [reflexivity|exact F2].
  Qed.

  Lemma process_message_clean debug hdrs host msgs : forall procs results mism,
    Forall (fun p => faithful (p_mod _ p) (p_st _ p) ((hdrs, host) :: msgs)) procs ->
    process_message debug procs hdrs host results mism = process_message false procs hdrs host results mism /\
    forall procs' results' mism', process_message debug procs hdrs host results mism = Ok (procs', results', mism') ->
      mism' = mism /\ Forall (fun p => faithful (p_mod _ p) (p_st _ p) msgs) procs'.
  Proof.
    induction procs as [|p ps IH]; intros results mism HF; cbn [Lib_Model.process_message].
    - split; [reflexivity|]. intros procs' results' mism' E. assert (procs' = [] /\ mism' = mism) as [-> ->] by (split; congruence). split; [reflexivity|constructor].
    - inversion HF as [|? ? Hp HF']; subst. destruct (process_one_clean debug hdrs host msgs p Hp) as [D1 D2].
      rewrite <- D1. destruct (process_one debug hdrs host p) as [[[p1 n] bad]|e] eqn:E1; cbn [bind]; [|split; [reflexivity|discriminate]].
      destruct (D2 p1 n bad eq_refl) as [-> F1]. destruct (IH (dset results (p_name _ p1) n) mism HF') as [G1 G2]. rewrite <- G1.
      destruct (process_message debug ps hdrs host (dset results (p_name _ p1) n) mism) as [[[ps1 r1] m1]|e] eqn:E2; cbn [bind]; [|split; [reflexivity|discriminate]].
      destruct (G2 ps1 r1 m1 eq_refl) as [-> F2]. split; [reflexivity|]. intros procs' results' mism' E.
      assert (procs' = p1 :: ps1 /\ mism' = mism) as [-> ->] by (split; congruence). split; [reflexivity|]. now constructor.
  Qed.

  Lemma session_loop_clean debug baseline : forall msgs procs sizes ratios mism,
    Forall (fun p => faithful (p_mod _ p) (p_st _ p) msgs) procs ->
    session_loop debug baseline procs msgs sizes ratios mism = session_loop false baseline procs msgs sizes ratios mism /\
    forall sizes' ratios' mism', session_loop debug baseline procs msgs sizes ratios mism = Ok (sizes', ratios', mism') ->
      mism' = mism ++ map (fun _ => []) msgs.
  Proof.
    induction msgs as [|[hdrs host] msgs IH]; intros procs sizes ratios mism HF; cbn [Lib_Model.session_loop map].
    - split; [reflexivity|]. intros s r m' E. rewrite app_nil_r. congruence.
    - destruct (process_message_clean debug hdrs host msgs procs [] [] HF) as [D1 D2]. rewrite <- D1.
      destruct (process_message debug procs hdrs host [] []) as [[[ps res] bad]|e]; cbn [bind]; [|split; [reflexivity|discriminate]].
      destruct (D2 ps res bad eq_refl) as [-> F]. destruct (record_results baseline res res sizes ratios) as [[s1 r1]|e]; cbn [bind]; [|split; [reflexivity|discriminate]].
      destruct (IH ps s1 r1 (mism ++ [[]]) F) as [G1 G2]. split; [exact G1|]. intros s r m' E. rewrite (G2 _ _ _ E), <- app_assoc. reflexivity.
  Qed.

  Lemma get_processors_mods is_req : forall names procs, get_processors is_req names = Ok procs ->
    Forall (fun p => exists n ps, In n names /\ parse_spec n = Ok (p_mod _ p, ps) /\ construct (p_mod _ p) is_req ps = Ok (p_st _ p)) procs.
  Proof.
    induction names as [|n ns IH]; intros procs E; cbn [Lib_Model.get_processors] in E.
    - assert (procs = []) as -> by congruence. constructor.
    - apply bind_ok in E as ([m ps] & E1 & E). apply bind_ok in E as (st & E2 & E). apply bind_ok in E as (r & E3 & E).
      assert (procs = mkProc St m (display_name m ps) st :: r) as -> by congruence. constructor.
      + exists n, ps. cbn [p_mod p_st]. split; [now left|]. auto.
      + eapply Forall_impl; [|apply (IH _ E3)]. intros p (n' & ps' & H1 & H2 & H3). exists n', ps'. split; [now right|auto].
  Qed.

  (** Every processor of the session is faithful on it. *)
  Definition all_faithful (names : list str) (is_req : bool) (msgs : list (hdict * str)) : Prop :=
    forall n m ps st, In n names -> parse_spec n = Ok (m, ps) -> construct m is_req ps = Ok st -> faithful m st msgs.

  Lemma process_session_clean debug baseline names is_req msgs : all_faithful names is_req msgs ->
    process_session debug baseline names is_req msgs = process_session false baseline names is_req msgs /\
    forall sizes ratios mism, process_session debug baseline names is_req msgs = Ok (sizes, ratios, mism) -> mism = map (fun _ => []) msgs.
  Proof.
    intros HF. unfold Lib_Model.process_session. destruct (get_processors is_req names) as [procs|e] eqn:E; cbn [bind]; [|split; [reflexivity|discriminate]].
    apply session_loop_clean. eapply Forall_impl; [|apply (get_processors_mods _ _ _ E)].
    intros p (n & ps & H1 & H2 & H3). exact (HF n _ ps _ H1 H2 H3).
  Qed.

  Variable streamify : list exchange -> res (list stream_desc).
  Notation run := (run St construct p_compress p_decompress ord streamify).
  Notation run_sessions := (run_sessions St construct p_compress p_decompress ord).

  Definition without_debug (o : opts) : opts := mkOpts (o_verbose o) false (o_names o) (o_baseline o) (o_tsv o).

  Lemma run_sessions_clean o procs : forall ss k, (forall s, In s ss -> all_faithful (names_of o) (sd_req s) (sd_msgs s)) ->
    run_sessions o procs k ss = run_sessions (without_debug o) procs k ss /\
    forall objs reps, run_sessions o procs k ss = Ok (objs, reps) -> Forall (fun r => Forall (eq []) (sr_mism r)) reps.
  Proof.
    induction ss as [|s ss IH]; intros k HF; cbn [Run_Model.run_sessions].
    - split; [reflexivity|]. intros objs reps E. assert (reps = []) as -> by congruence. constructor.
    - change (names_of (without_debug o)) with (names_of o). change (baseline_of (without_debug o)) with (baseline_of o).
      change (o_debug (without_debug o)) with false. change (o_verbose (without_debug o)) with (o_verbose o).
      destruct (process_session_clean (o_debug o) (baseline_of o) (names_of o) (sd_req s) (sd_msgs s) (HF s (or_introl eq_refl))) as [D1 D2]. rewrite <- D1.
      destruct (process_session (o_debug o) (baseline_of o) (names_of o) (sd_req s) (sd_msgs s)) as [[[sizes ratios] mism]|e]; cbn [bind]; [|split; [reflexivity|discriminate]].
      specialize (D2 _ _ _ eq_refl). cbv zeta.
      match goal with |- context [if o_verbose o then ?a else ?b] => destruct (if o_verbose o then a else b) as [lines|e]; cbn [bind]; [|split; [reflexivity|discriminate]] end.
      destruct (IH (S k) (fun x Hx => HF x (or_intror Hx))) as [G1 G2]. rewrite <- G1.
      destruct (run_sessions o procs (S k) ss) as [[objs reps]|e]; cbn [bind]; [|split; [reflexivity|discriminate]].
      split; [reflexivity|]. intros objs' reps' E. specialize (G2 _ _ eq_refl).
      assert (reps' = mkSR (sd_name s) (length (sd_msgs s)) mism lines :: reps) as -> by congruence. constructor; [|exact G2].
      cbn [sr_mism]. rewrite D2. clear. induction (sd_msgs s); cbn [map]; constructor; auto.
  Qed.

  Lemma run_clean o files ss : all_sessions streamify files = Ok ss ->
    (forall s, In s ss -> all_faithful (names_of o) (sd_req s) (sd_msgs s)) ->
    run o files = run (without_debug o) files /\
    forall rep, run o files = Ok rep -> Forall (fun r => Forall (eq []) (sr_mism r)) (rep_sessions rep).
  Proof.
    intros Es HF. unfold Run_Model.run. change (names_of (without_debug o)) with (names_of o).
    destruct (construct_all St construct (names_of o)) as [procs|e]; cbn [bind]; [|split; [reflexivity|discriminate]]. rewrite Es. cbn [bind].
    destruct (run_sessions_clean o procs ss 0 HF) as [D1 D2]. rewrite <- D1.
    destruct (run_sessions o procs 0 ss) as [[objs reps]|e]; cbn [bind]; [|split; [reflexivity|discriminate]].
    specialize (D2 _ _ eq_refl). split; [reflexivity|]. intros rep E.
    apply bind_ok in E as ([st1 r1] & E1 & E). apply bind_ok in E as ([st2 r2] & E2 & E).
    assert (rep_sessions rep = reps) as ->; [|exact D2].
    injection E as <-. reflexivity.
  Qed.
End Clean.
