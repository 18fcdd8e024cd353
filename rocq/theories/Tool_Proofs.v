(** * The tool with its own codecs: each of them alone. *)
From Coq Require Import String List NArith ZArith Bool Lia Permutation.
From Verif Require Import PyBase Lib_Model Lib_Spec Lib_Proofs H1_Model H1_Spec H1_Proofs Prop_H1
  HTTP2_Model HTTP2_Sim HTTP2_Inv HTTP2_Spec HTTP2_More HTTP2_Proc_Model HTTP2_Proc
  HD_Model HD_Spec HD_Sim HD_Session HD_Proc_Model HDHuff_Model Prop_HD Prop_HDHuff
  D1Huff_Model D1Wire_Model D1Code_Model Prop_D1Code D2Huff_Model D2Wire_Model D2Store_Model D2Code_Model D2Code_Exec D2Code_Make D2Code_Round D2Code_Says D1Code_Exec Prop_D2Wire Prop_D2Code
  Simple_Model Simple_Spec Simple_Proofs Simple_Session Params_Model Tool_Model Run_Model Tool_Clean PyStr.
Import ListNotations.
Open Scope N_scope.
Open Scope py_scope.

Section Codecs.
  Variable E : env.
  Variable O : Type.
  Variable other_new : str -> bool -> list str -> res O.
  Variable other_compress : str -> O -> hdict -> str -> res (O * str).
  Variable other_decompress : str -> O -> str -> res (O * option hdict).

  Notation new := (tool_new E O other_new).
  Notation comp := (tool_compress E O other_compress).
  Notation dec := (tool_decompress E O other_decompress).
  Notation solo := (solo_run (pstate O) comp dec).
  Notation sent := (fun msgs : list (hdict * str) => map (fun x => filter_headers (fst x)) msgs).

  Lemma bad_false (bad : bool) (P : Prop) : (bad = false <-> P) -> P -> bad = false.
  Proof. tauto. Qed.

  (** ** http1 *)
  Definition h1_message (q : bool) (d : hdict) : Prop := if q then wf_request (lit "host") d else wf_response (lit "host") d.

  Lemma http1_faithful m q : forall msgs rs, Forall (h1_message q) (sent msgs) -> solo m (PHttp1 O q) msgs rs -> Forall (fun r => snd r = false) rs.
  Proof.
    intros msgs. induction msgs as [|[hdrs host] msgs IH]; intros rs HF H; inversion H as [|? st1 st2 ? ? c ? rs' C D R|? st1 st2 ? ? c d ? bad rs' C D B R]; subst; constructor.
    - reflexivity.
    - exfalso. cbn [tool_compress] in C. injection C as <- <-. cbn [tool_decompress] in D. apply bind_ok in D as (x & _ & D). discriminate.
    - cbn [snd]. apply (bad_false _ _ B). cbn [tool_compress] in C. injection C as <- <-. cbn [tool_decompress] in D. apply bind_ok in D as (x & Dx & D).
      assert (x = d) as -> by congruence. inversion HF as [|? ? Hd _]; subst. cbn [fst] in Hd.
      apply (compare_verdict (fun l => l) _ (lit "orig") _ (lit "http1") (fun l => Permutation_refl l)).
      exact (C31_http1_passes_harness_check (fun l => l) q _ _ (fun l => Permutation_refl l) Hd Dx).
    - cbn [tool_compress] in C. injection C as <- <-. cbn [tool_decompress] in D. apply bind_ok in D as (x & Dx & D).
      assert (st2 = PHttp1 O q) as -> by congruence. inversion HF; subst. exact (IH _ H3 R).
  Qed.

  (** ** http2 *)
  Lemma http2_faithful m max : forall msgs c d rs, Rel c d -> good d -> Forall blank_only (sent msgs) ->
    solo m (PHttp2 O max (c, d)) msgs rs -> Forall (fun r => snd r = false) rs.
  Proof.
    induction msgs as [|[hdrs host] msgs IH]; intros c d rs HR HG HF H;
      inversion H as [|? st1 st2 ? ? x ? rs' C D R|? st1 st2 ? ? x out ? bad rs' C D B R]; subst; [constructor| |];
      cbn [map fst] in HF; inversion HF as [|? ? Hb HF']; subst;
      cbn [tool_compress] in C; apply bind_ok in C as ([st f] & C & C'); unfold http2_compress in C; apply bind_ok in C as ([c1 f1] & C1 & C);
      cbn [fst snd] in *; assert (st = (c1, d) /\ f = f1) as [-> ->] by (split; congruence);
      assert (st1 = PHttp2 O max (c1, d) /\ x = f1) as [-> ->] by (split; congruence); clear C C';
      destruct (message_sim _ _ _ _ _ _ _ HR HG C1) as (d1 & hs & D1 & HR1 & HG1 & Hset & _);
      cbn [tool_decompress] in D; unfold http2_decompress in D; cbn [fst snd] in D; rewrite D1 in D; cbn [bind] in D.
    - discriminate.
    - assert (st2 = PHttp2 O max (c1, d1) /\ out = join_headers hs) as [-> ->] by (split; congruence).
      constructor; [|exact (IH _ _ _ HR1 HG1 HF' R)]. cbn [snd]. apply (bad_false _ _ B). now apply join_split_same.
  Qed.

  (** ** headerdiff *)
  Lemma solo_hd m cfg q : forall msgs e d rs, solo m (PHeaderdiff O cfg q (e, d)) msgs rs ->
    (exists e' fs, enc_all (e_hd_order E) cfg e (hd_msgs q (sent msgs)) = (e', Ok fs)) /\
    forall ord, is_order ord -> exists vs, hdp_session (e_hd_order E) cfg q ord (e, d) (sent msgs) = Ok vs /\
      Forall2 (fun v r => v = [] -> snd r = false) vs rs.
  Proof.
    induction msgs as [|[hdrs host] msgs IH]; intros e d rs H.
    - inversion H; subst. split; [do 2 eexists; reflexivity|]. intros ord Ho. exists []. split; [reflexivity|constructor].
    - inversion H as [|? st1 st2 ? ? x ? rs' C D R|? st1 st2 ? ? x out ? bad rs' C D B R]; subst;
        cbn [tool_compress] in C; apply bind_ok in C as ([st f] & C & C'); pose proof C as Ch; unfold hdp_compress in C; cbn [fst snd] in C;
        destruct (hd_encode (e_hd_order E) cfg q e (hd_split (filter_headers hdrs))) as [e1 [f1|]] eqn:E1; [|discriminate| |discriminate];
        assert (st = (e1, d) /\ f = f1) as [-> ->] by (split; congruence);
        assert (st1 = PHeaderdiff O cfg q (e1, d) /\ x = f1) as [-> ->] by (split; congruence); clear C C';
        cbn [tool_decompress] in D; apply bind_ok in D as ([st back] & D & D'); pose proof D as Dh; unfold hdp_decompress in D; cbn [fst snd] in D;
        destruct (hd_decode cfg q d f1) as [d1 [hs|]] eqn:D1; [|discriminate| |discriminate].
      + assert (back = Some (hd_join hs)) as -> by congruence. discriminate D'.
      + assert (st = (e1, d1) /\ back = Some (hd_join hs)) as [-> ->] by (split; congruence).
        assert (st2 = PHeaderdiff O cfg q (e1, d1) /\ out = hd_join hs) as [-> ->] by (split; congruence). clear D D'.
        destruct (IH _ _ _ R) as ((e' & fs & Ee) & Hv). split.
        * exists e', (f1 :: fs). unfold hd_msgs in *. cbn [map fst enc_all]. rewrite E1. rewrite Ee. reflexivity.
        * intros ord Ho. destruct (Hv ord Ho) as (vs & Ev & Hf). eexists. split.
          -- cbn [map fst hdp_session]. rewrite Ch. cbn [bind]. rewrite Dh. cbn [bind]. rewrite Ev. cbn [bind]. reflexivity.
          -- constructor; [|exact Hf]. cbn [snd]. intros V. apply (bad_false _ _ B). now apply (compare_verdict ord _ (lit "orig") _ (lit "headerdiff") Ho).
  Qed.

  Lemma headerdiff_faithful m cfg q msgs rs : some_order (e_hd_order E) -> strings_ok cfg -> (0 <= h_max cfg)%Z ->
    Forall blank_only (sent msgs) -> distinct_texts (hd_msgs q (sent msgs)) ->
    solo m (PHeaderdiff O cfg q (henc_new, hdec_new)) msgs rs -> Forall (fun r => snd r = false) rs.
  Proof.
    intros Ho Hs Hm HB HD H. destruct (solo_hd _ _ _ _ _ _ _ H) as ((e' & fs & Ee) & Hv).
    destruct (Hv (fun l => l) (fun l => Permutation_refl l)) as (vs & Ev & Hf).
    pose proof (C47_headerdiff_passes_harness_check (e_hd_order E) cfg q (fun l => l) _ _ _ Ho Hs Hm (fun l => Permutation_refl l) HB HD Ee) as Ev'.
    assert (Evs : vs = map (fun _ => []) (sent msgs)) by congruence. clear -Hf Evs. revert msgs Evs. induction Hf as [|v r vs rs H _ IH]; intros msgs Evs; [constructor|].
    destruct msgs as [|x msgs]; [discriminate|]. cbn [map] in Evs. assert (v = [] /\ vs = map (fun _ => []) (sent msgs)) as [-> ->] by (split; congruence).
    constructor; [auto|]. exact (IH msgs eq_refl).
  Qed.

  (** ** delta2 and delta *)
  Definition short (rs : list (N * bool)) : Prop := Forall (fun r => fst r <= 65536) rs.
  Definition octet_headers (d : hdict) : Prop := forall k v, In (k, v) d -> is_bytes k /\ is_bytes v.

  Lemma delta2_faithful m q : coder (e_d2_coder E q) -> (forall n, order_ok (e_d2_order E n)) -> (forall n z, Permutation (e_d2_refs E n z) z) ->
    forall msgs n p rs, pinv p -> Forall (fun d => octet_headers d /\ plain_cookie d) (sent msgs) ->
    solo m (PDelta2 O q n p) msgs rs -> short rs -> Forall (fun r => snd r = false) rs.
  Proof.
    intros Hc Ho Hr. induction msgs as [|[hdrs host] msgs IH]; intros n p rs HI HF H HS;
      inversion H as [|? st1 st2 ? ? x ? rs' C D R|? st1 st2 ? ? x out ? bad rs' C D B R]; subst; [constructor| |];
      cbn [map fst] in HF; inversion HF as [|? ? [Hb Hp] HF']; inversion HS as [|? ? Hl HS']; subst; cbn [fst] in Hl;
      destruct (call_round (e_norm E) (e_d2_coder E q) p (mk_call (filter_headers hdrs) host (e_d2_order E n) (e_d2_refs E n)) Hc HI) as (p1 & blob & C1 & _ & Rd);
      try (split; [exact Hb|]; split; [apply Ho|apply Hr]); cbn [call_headers call_host call_sender call_receiver] in *;
      cbn [tool_compress] in C; rewrite C1 in C; cbn [bind] in C; assert (st1 = PDelta2 O q n p1 /\ x = blob) as [-> ->] by (split; congruence);
      destruct (Rd Hl) as (p2 & o2 & D2 & I2 & Rc); cbn [tool_decompress] in D; rewrite D2 in D; cbn [bind] in D.
    - discriminate.
    - assert (st2 = PDelta2 O q (S n) p2 /\ out = o2) as [-> ->] by (split; congruence).
      constructor; [|exact (IH _ _ _ I2 HF' R HS')]. cbn [snd]. apply (bad_false _ _ B). intros k y _. symmetry. now apply reconstructed_plain.
  Qed.

  Definition few_pieces_of (d : hdict) : Prop := exists ps, (length ps <= 128)%nat /\ forall k y, carries d k y -> In (k, y) ps.
  Definition delta_message (d : hdict) : Prop :=
    octet_headers d /\ plain_cookie d /\ (forall v, ~ In (e_d1_name E, v) d) /\ few_pieces_of d.

  Lemma delta_faithful m q : coder1 (e_d1_coder E q) -> visits (e_d1_groups E) -> (forall n, order1_ok (e_d1_order E n)) -> (forall n z, Permutation (e_d1_refs E n z) z) ->
    forall msgs n p rs, pinv1 (e_d1_name E) p -> Forall delta_message (sent msgs) ->
    solo m (PDelta O q n p) msgs rs -> short rs -> Forall (fun r => snd r = false) rs.
  Proof.
    intros Hc Hv Ho Hr. induction msgs as [|[hdrs host] msgs IH]; intros n p rs HI HF H HS;
      inversion H as [|? st1 st2 ? ? x ? rs' C D R|? st1 st2 ? ? x out ? bad rs' C D B R]; subst; [constructor| |];
      cbn [map fst] in HF; inversion HF as [|? ? (Hb & Hp & Hn & Hf) HF']; inversion HS as [|? ? Hl HS']; subst; cbn [fst] in Hl;
      cbn [tool_compress] in C; apply bind_ok in C as ([p1 blob] & C1 & C);
      assert (st1 = PDelta O q n p1 /\ x = blob) as [-> ->] by (split; congruence);
      destruct (call1_round (e_d1_name E) (e_d1_groups E) (e_norm E) (e_d1_coder E q) p
        (mk_call1 (filter_headers hdrs) host (e_d1_order E n) (e_d1_refs E n)) p1 blob Hv Hc HI) as (p2 & o2 & D2 & I2 & Rc);
      try exact C1; try exact Hl;
      try (unfold call1_ok; split; cbn [m1_headers m1_group m1_sender m1_receiver c1_headers c1_sender c1_receiver]; [exact Hb|exact Hn|exact Hf|reflexivity|apply Ho|apply Hr]);
      cbn [c1_headers c1_receiver] in *; cbn [tool_decompress] in D; rewrite D2 in D; cbn [bind] in D.
    - discriminate.
    - assert (st2 = PDelta O q (S n) p2 /\ out = o2) as [-> ->] by (split; congruence).
      constructor; [|exact (IH _ _ _ I2 HF' R HS')]. cbn [snd]. apply (bad_false _ _ B). intros k y _. symmetry. now apply reconstructed_plain.
  Qed.

  (** ** simple *)
  Lemma arrives_same q d d' : simple_message q d -> arrives d d' -> same_content d d'.
  Proof.
    intros Hm [HN HL]. apply message_all_ok in Hm. apply lookups_same_content; [apply Hm|exact HN|]. intros k Hk.
    assert (H1 : k <> lit ":version") by (intros ->; apply Hk; now left).
    assert (H2 : k <> lit ":status-text") by (intros ->; apply Hk; right; now left).
    destruct (dget d k) as [v|] eqn:Ev.
    - apply dget_in in Ev. apply in_dget; [exact HN|]. now apply HL.
    - apply dget_none. intros Hin. apply in_map_iff in Hin as ([k' v] & Ek & Hin). cbn [fst] in Ek. subst k'.
      apply HL in Hin; auto. apply dget_none in Ev. apply Ev. apply (in_map fst) in Hin. exact Hin.
  Qed.

  Lemma simple_faithful m o (ok : hdict -> Prop) : any_order (e_simple_order E) ->
    (forall d, ok d -> simple_message (o_request o) d /\ dates_ok o d) ->
    (forall i lc d, match lc with None => True | Some c => ok c end -> ok d -> carries_text o (wire_text o (e_simple_order E i) lc d)) ->
    forall msgs n lc ld rs, Forall ok (sent msgs) -> match lc with None => True | Some c => ok c end -> Inv lc ld ->
    solo m (PSimple O o n lc ld) msgs rs -> Forall (fun r => snd r = false) rs.
  Proof.
    intros Ho Hg Hc. induction msgs as [|[hdrs host] msgs IH]; intros n lc ld rs HF Hl HI H;
      inversion H as [|? st1 st2 ? ? x ? rs' C D R|? st1 st2 ? ? x out ? bad rs' C D B R]; subst; [constructor| |];
      cbn [map fst] in HF; inversion HF as [|? ? Hd HF']; subst; destruct (Hg _ Hd) as [G1 G2];
      destruct (Simple_Session.message_ok o (e_simple_order E n) (e_simple_order E (S n)) lc ld _ (Ho n) (Ho (S n)) HI G1 G2 (Hc n lc _ Hl Hd)) as (E1 & e & b & E2 & HI' & HA);
      cbn [tool_compress] in C; rewrite E1 in C; cbn [bind] in C;
      assert (st1 = PSimple O o (S n) (Some (filter_headers hdrs)) ld /\ x = o_enc o (wire_text o (e_simple_order E n) lc (filter_headers hdrs))) as [-> ->] by (split; congruence);
      cbn [tool_decompress] in D; rewrite E2 in D; cbn [bind] in D.
    - discriminate.
    - assert (st2 = PSimple O o (S (S n)) (Some (filter_headers hdrs)) (Some e) /\ out = b) as [-> ->] by (split; congruence).
      constructor; [|exact (IH _ (Some (filter_headers hdrs)) _ _ HF' Hd HI' R)]. cbn [snd]. apply (bad_false _ _ B). exact (arrives_same _ _ _ G1 HA).
  Qed.
End Codecs.
