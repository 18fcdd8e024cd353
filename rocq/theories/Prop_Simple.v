(** * Properties C29, C30 and C46: the simple codec. *)
From Coq Require Import String List NArith ZArith Bool Lia Permutation Arith.
From Verif Require Import PyBase PyStr NBits Bits PyMerge Lib_Model Lib_Spec Lib_Proofs H1_Model H1_Spec H1_Proofs Prop_H1.
From Verif Require Import Simple_Model Simple_Spec Simple_Proofs Simple_Session.
Import ListNotations.
Open Scope N_scope.
Open Scope py_scope.

(** ** C29: seven-bit packing gives the text back exactly when it is empty or
    its length is not a multiple of eight; otherwise the last character is lost. *)

Theorem C29_seven_exact : forall text, (forall c, In c text -> c < 128) ->
  (seven_decode (seven_encode text) = text <-> text = [] \/ (length text mod 8 <> 0)%nat) /\
  (seven_decode (seven_encode text) = text \/ exists c, text = seven_decode (seven_encode text) ++ [c]).
Proof.
  intros text H. rewrite seven_decode_encode by now apply Forall_forall.
  destruct (Nat.eqb_spec (length text mod 8) 0) as [E|E].
  - destruct text as [|x t]; [split; [split; auto|now left]|].
    assert (A : exists l c, x :: t = l ++ [c]) by (destruct (exists_last (l := x :: t)) as (l & c & El); [discriminate|eauto]).
    destruct A as (l & c & A). rewrite A, removelast_snoc. split.
    + split.
      * intros El. apply (f_equal (@length N)) in El. rewrite app_length in El. cbn in El. lia.
      * intros [El|El]; [destruct l; discriminate|]. rewrite A in E. contradiction.
    + right. exists c. reflexivity.
  - split; [|now left]. split; [now right|auto].
Qed.
Print Assumptions C29_seven_exact.

Theorem C29_seven_refuted : exists text, (forall c, In c text -> c < 128) /\ seven_decode (seven_encode text) <> text.
Proof.
  exists (lit "abcdefgh"). split.
  - intros c Hc. vm_compute in Hc. repeat (destruct Hc as [<-|Hc]; [lia|]). destruct Hc.
  - vm_compute. discriminate.
Qed.
Print Assumptions C29_seven_refuted.

Example C29_example : seven_decode (seven_encode (lit "abcdefghi")) = lit "abcdefghi" /\
  seven_decode (seven_encode (lit "abcdefgh")) = lit "abcdefg" /\ length (seven_encode (lit "abcdefgh")) = 7%nat.
Proof. vm_compute. auto. Qed.

(** ** C30: sessions *)

Theorem C30_simple_session : forall is_request max ord msgs, any_order ord ->
  Forall (simple_message is_request) msgs ->
  exists outs, s_session (opts_plain is_request max) ord 0 None None msgs = Ok outs /\ Forall2 arrives msgs outs.
Proof.
  intros r mx ord msgs Ho HF. apply (session_ok (opts_plain r mx) ord (simple_message r) Ho); [| |exact HF|exact I|exact I].
  - intros d Hd. split; [exact Hd|]. intros k v _ Hx. discriminate.
  - intros i lc d _ _. eexists. split; [reflexivity|now left].
Qed.
Print Assumptions C30_simple_session.

(** With seven-bit packing (which loses the last character of one message in
    eight: it is always the second of two newlines). *)
Theorem C30_simple_seven_session : forall is_request max ord msgs, any_order ord ->
  Forall (fun d => simple_message is_request d /\ ascii_headers d) msgs ->
  exists outs, s_session (opts_seven is_request max) ord 0 None None msgs = Ok outs /\ Forall2 arrives msgs outs.
Proof.
  intros r mx ord msgs Ho HF.
  apply (session_ok (opts_seven r mx) ord (fun d => simple_message r d /\ ascii_headers d) Ho); [| |exact HF|exact I|exact I].
  - intros d [Hd _]. split; [exact Hd|]. intros k v _ Hx. discriminate.
  - intros i lc d _ [Hd Ha]. apply seven_carries; [|apply format_newline].
    apply wire_small; auto. now apply (message_all_ok r).
Qed.
Print Assumptions C30_simple_seven_session.

(** With the date option, for any date functions and any message coder that are
    themselves lossless on the messages of the session. *)
Theorem C30_simple_dates_session : forall o ord msgs, any_order ord ->
  (forall m, o_dec o (o_enc o m) = Ok m) ->
  Forall (fun d => simple_message (o_request o) d /\ dates_ok o d) msgs ->
  exists outs, s_session o ord 0 None None msgs = Ok outs /\ Forall2 arrives msgs outs.
Proof.
  intros o ord msgs Ho Ht HF.
  apply (session_ok o ord (fun d => simple_message (o_request o) d /\ dates_ok o d) Ho); [auto| |exact HF|exact I|exact I].
  intros i lc d _ _. eexists. split; [apply Ht|now left].
Qed.
Print Assumptions C30_simple_dates_session.

Lemma forall2_nth {A B} (R : A -> B -> Prop) l l' : Forall2 R l l' -> forall i x y,
  nth_error l i = Some x -> nth_error l' i = Some y -> R x y.
Proof.
  induction 1 as [|a b l l' H HF IH]; intros i x y; [destruct i; discriminate|]. destruct i as [|i]; cbn.
  - intros [= <-] [= <-]. exact H.
  - apply IH.
Qed.

(** What arrives passes the harness's check. *)
Theorem C30_simple_passes_harness_check : forall is_request max ord ordc msgs outs i d d',
  any_order ord -> is_order ordc -> Forall (simple_message is_request) msgs ->
  s_session (opts_plain is_request max) ord 0 None None msgs = Ok outs ->
  nth_error msgs i = Some d -> nth_error outs i = Some d' ->
  compare_headers ordc d (lit "orig") d' (lit "simple") = [].
Proof.
  intros r mx ord ordc msgs outs i d d' Ho Hc HF E Hd Hd'.
  destruct (C30_simple_session r mx ord msgs Ho HF) as (outs2 & E2 & HA). assert (outs2 = outs) by congruence. subst outs2.
  pose proof (forall2_nth _ _ _ HA i d d' Hd Hd') as [HN HL]. apply compare_verdict; [exact Hc|].
  assert (HD : is_dict d).
  { apply nth_error_In in Hd. rewrite Forall_forall in HF. apply HF in Hd. apply message_all_ok in Hd. apply Hd. }
  apply lookups_same_content; [exact HD|exact HN|]. intros k Hk.
  assert (H1 : k <> lit ":version") by (intros ->; apply Hk; now left).
  assert (H2 : k <> lit ":status-text") by (intros ->; apply Hk; right; now left).
  destruct (dget d k) as [v|] eqn:Ev.
  - apply dget_in in Ev. apply in_dget; [exact HN|]. now apply HL.
  - apply dget_none. intros Hin. apply in_map_iff in Hin as ([k' v] & Ek & Hin). cbn [fst] in Ek. subst k'.
    apply HL in Hin; auto. apply dget_none in Ev. apply Ev. apply (in_map fst) in Hin. exact Hin.
Qed.
Print Assumptions C30_simple_passes_harness_check.

(** A session in which the second message is mostly references. *)
Definition c30_m1 : hdict := [(lit "accept", lit "*/*"); (lit ":method", lit "get"); (lit ":host", lit "h.com");
  (lit ":path", lit "/a"); (lit "x-a", lit "one" ++ [0] ++ lit "two"); (lit ":scheme", lit "http"); (lit ":version", lit "HTTP/1.1")].
Definition c30_m2 : hdict := [(lit "accept", lit "*/*"); (lit ":method", lit "get"); (lit ":host", lit "h.com");
  (lit ":path", lit "/b"); (lit "x-a", lit "one" ++ [0] ++ lit "two"); (lit "cookie", lit "c=1")].
Definition c30_ord : nat -> hdict -> hdict := fun _ d => rev d.

Example C30_example_wire :
  (let* (c, _) := s_compress (opts_plain true 10) (c30_ord 0) None c30_m1 in
   let* (_, w) := s_compress (opts_plain true 10) (c30_ord 0) c c30_m2 in Ok w)
  = Ok (lit "get /b H/2" ++ [10] ++ lit "ref:a,!h,!x-a" ++ [10] ++ lit "c:c=1" ++ [10; 10]).
Proof. vm_compute. reflexivity. Qed.

Example C30_example : s_session (opts_seven true 10) c30_ord 0 None None [c30_m1; c30_m2; c30_m2] =
  Ok [ [(lit ":version", lit "H/2"); (lit ":path", lit "/a"); (lit ":method", lit "get"); (lit "accept", lit "*/*");
        (lit "x-a", lit "one" ++ [0] ++ lit "two"); (lit ":scheme", lit "http"); (lit ":host", lit "h.com")];
       [(lit ":version", lit "H/2"); (lit ":path", lit "/b"); (lit ":method", lit "get"); (lit "cookie", lit "c=1");
        (lit "accept", lit "*/*"); (lit "x-a", lit "one" ++ [0] ++ lit "two"); (lit ":host", lit "h.com")];
       [(lit ":version", lit "H/2"); (lit ":path", lit "/b"); (lit ":method", lit "get");
        (lit "accept", lit "*/*"); (lit "x-a", lit "one" ++ [0] ++ lit "two"); (lit "cookie", lit "c=1"); (lit ":host", lit "h.com")] ].
Proof. vm_compute. reflexivity. Qed.

(** The hypotheses hold of it. *)
Definition simple_nameb (k : str) : bool := negb (str_eqb k []) && negb (str_eqb k (lit "h")) &&
  forallb (fun c => negb (is_space c) && negb ((65 <=? c) && (c <=? 90)) && negb (c =? 44) && negb (c =? 58) && negb (c =? 0)) k.
Definition colon_nameb (k : str) : bool := match k with
  | c :: s => (c =? 58) && (forallb (fun c => negb ((65 <=? c) && (c <=? 90)) && negb (c =? 10)) s && negb (existsb (N.eqb 58) s))
  | [] => false end.
Definition one_lineb (x : str) : bool := negb (existsb (N.eqb 10) x) && str_eqb (strip is_space x) x.

Lemma simple_nameb_ok k : simple_nameb k = true -> simple_name k.
Proof.
  unfold simple_nameb. intros H. apply andb_true_iff in H as [H H3]. apply andb_true_iff in H as [H1 H2].
  split; [intros ->; discriminate|]. split; [intros ->; discriminate|]. intros c Hc. rewrite forallb_forall in H3. specialize (H3 c Hc).
  rewrite !andb_true_iff in H3. destruct H3 as ((((A & B) & C) & D) & E). rewrite !negb_true_iff in *.
  apply N.eqb_neq in C, D, E. split; [intros Hw; apply is_space_white in Hw; congruence|]. split; [|auto].
  intros [X Y]. apply N.leb_le in X, Y. rewrite X, Y in B. discriminate.
Qed.

Lemma colon_nameb_ok k : colon_nameb k = true -> colon_name k.
Proof.
  destruct k as [|c s]; [discriminate|]. unfold colon_nameb. intros H. apply andb_true_iff in H as [H1 H2].
  apply N.eqb_eq in H1. subst c. now apply colon_lit.
Qed.

Lemma one_lineb_ok s : one_lineb s = true -> one_line s.
Proof.
  intros H. apply andb_true_iff in H as [H1 H2]. split.
  - intros Hin. apply negb_true_iff in H1. assert (existsb (N.eqb 10) s = true); [|congruence].
    apply existsb_exists. exists 10. auto.
  - apply str_eqb_true in H2. destruct s as [|a z]; [now left|right].
    pose proof (strip_no_ends is_space (a :: z)) as [N1 N2]. rewrite H2 in N1, N2. rewrite last_rev. split.
    + cbn. intros Hw. apply is_space_white in Hw. congruence.
    + destruct (rev (a :: z)) as [|c r] eqn:Er; [apply (f_equal (@rev N)) in Er; rewrite rev_involutive in Er; discriminate|].
      cbn. intros Hw. apply is_space_white in Hw. congruence.
Qed.

Lemma simple_headersb_ok sp d :
  forallb (fun kv : str * str => mem_str (fst kv) sp || (simple_nameb (fst kv) || colon_nameb (fst kv)) && forallb one_lineb (split_on 0 (snd kv))) d = true ->
  simple_headers sp d.
Proof.
  intros H k v Hin Hs. rewrite forallb_forall in H. specialize (H _ Hin). cbn [fst snd] in H.
  apply orb_true_iff in H as [H|H]; [exfalso; apply Hs; destruct (mem_str_spec k sp); [assumption|discriminate]|].
  apply andb_true_iff in H as [H1 H2]. split.
  - apply orb_true_iff in H1 as [H1|H1]; [left; now apply simple_nameb_ok|right; now apply colon_nameb_ok].
  - intros x Hx. apply piece_of_split in Hx. rewrite forallb_forall in H2. apply one_lineb_ok. now apply H2.
Qed.

Lemma wordb s : negb (str_eqb s []) && forallb (fun c => negb (is_space c)) s = true -> one_word s.
Proof.
  intros H. apply andb_true_iff in H as [H1 H2]. split.
  - intros ->. discriminate.
  - intros c Hc Hw. apply is_space_white in Hw. rewrite forallb_forall in H2. specialize (H2 c Hc). rewrite Hw in H2. discriminate.
Qed.

Example C30_example_wf : Forall (simple_message true) [c30_m1; c30_m2; c30_m2].
Proof.
  assert (H1 : simple_message true c30_m1).
  { split; [repeat constructor; cbn; intuition discriminate|]. split; [|split].
    - exists (lit "get"). split; [cbn; tauto|]. apply wordb. reflexivity.
    - exists (lit "/a"). split; [cbn; tauto|]. apply wordb. reflexivity.
    - apply simple_headersb_ok. vm_compute. reflexivity. }
  assert (H2 : simple_message true c30_m2).
  { split; [repeat constructor; cbn; intuition discriminate|]. split; [|split].
    - exists (lit "get"). split; [cbn; tauto|]. apply wordb. reflexivity.
    - exists (lit "/b"). split; [cbn; tauto|]. apply wordb. reflexivity.
    - apply simple_headersb_ok. vm_compute. reflexivity. }
  repeat (constructor; [assumption|]). constructor.
Qed.

(** Refuted without the conditions on names: a request header called "h"
    arrives as :host, and a name with a comma that is sent by reference stops
    the receiver. *)
Theorem C30_simple_names_refuted :
  s_session (opts_plain true 10) (fun _ d => d) 0 None None
    [[(lit ":method", lit "get"); (lit ":path", lit "/"); (lit "h", lit "evil")]]
    = Ok [[(lit ":method", lit "get"); (lit ":path", lit "/"); (lit ":version", lit "H/2"); (lit ":host", lit "evil")]] /\
  s_session (opts_plain true 10) (fun _ d => d) 0 None None
    [[(lit ":method", lit "get"); (lit ":path", lit "/"); (lit "a,b", lit "1")];
     [(lit ":method", lit "get"); (lit ":path", lit "/"); (lit "a,b", lit "1")]] = Err KeyError.
Proof. vm_compute. auto. Qed.
Print Assumptions C30_simple_names_refuted.

(** ** C46: with the date option, a date header whose value is not a date but
    is a hexadecimal number arrives changed.  Whatever the date functions are,
    provided "0" is not a date and formatting time 0 gives something else
    (it gives "Thu, 01 Jan 1970 00:00:00 GMT"). *)
Theorem C46_simple_date_option_refuted : forall max din dout t,
  din (lit "0") = None -> dout (lit "0") = Some t -> t <> lit "0" ->
  exists d d', simple_message false d /\ In (lit "expires", lit "0") d /\
    s_session (mk_s_opts (fun a => a) (fun a => Ok a) true din dout max false) (fun _ d => d) 0 None None [d] = Ok [d'] /\
    In (lit "expires", t) d' /\ ~ arrives d d'.
Proof.
  intros mx din dout t H1 H2 H3.
  exists [(lit ":status", lit "200"); (lit "expires", lit "0")],
    [(lit "expires", t); (lit ":version", lit "H/2"); (lit ":status", lit "200"); (lit ":status-text", lit "?")].
  split; [|split; [cbn; tauto|split; [|split; [cbn; tauto|]]]].
  - split; [repeat constructor; cbn; intuition discriminate|]. split; [cbn; intuition discriminate|]. split; [cbn; intuition discriminate|]. split.
    + exists (lit "200"). split; [cbn; tauto|]. apply wordb. reflexivity.
    + apply simple_headersb_ok. vm_compute. reflexivity.
  - cbn [s_session]. unfold s_compress. cbn [s_loop].
    assert (E1 : s_step (mk_s_opts (fun a => a) (fun a => Ok a) true din dout mx false) None ([], []) (lit ":status", lit "200")
      = Ok ([(lit ":status", lit "200")], [])) by reflexivity.
    rewrite E1. cbn [bind].
    assert (E2 : s_step (mk_s_opts (fun a => a) (fun a => Ok a) true din dout mx false) None ([(lit ":status", lit "200")], []) (lit "expires", lit "0")
      = Ok ([(lit ":status", lit "200"); (lit "x", lit "0")], [])).
    { transitivity (Ok ([(lit ":status", lit "200"); (lit "x", match din (lit "0") with Some x => x | None => lit "0" end)], @nil str)); [reflexivity|]. now rewrite H1. }
    rewrite E2. cbn [bind].
    set (w := format_http1 _ _ _ _ _). cbn [dget o_enc].
    unfold s_decompress. cbn [o_dec bind].
    assert (Ep : parse_http1 w false (lit "h") = Ok [(lit "x", lit "0"); (lit ":version", lit "H/2"); (lit ":status", lit "200"); (lit ":status-text", lit "?")]) by (vm_compute; reflexivity).
    match goal with |- context [parse_http1 ?a ?b ?c] => change (parse_http1 a b c) with (parse_http1 w false (lit "h")) end. rewrite Ep. cbn [bind d_loop].
    assert (E3 : d_step (mk_s_opts (fun a => a) (fun a => Ok a) true din dout mx false) [] (lit "x", lit "0") = Ok [(lit "expires", t)]).
    { transitivity (match dout (lit "0") with Some x => Ok [(lit "expires", x)] | None => Ok [(lit "expires", lit "0")] end); [reflexivity|]. now rewrite H2. }
    rewrite E3. reflexivity.
  - intros [_ HA]. destruct (HA (lit "expires") t) as [HA1 _]; [discriminate|discriminate|].
    destruct HA1 as [E|[E|[]]]; [cbn; tauto|discriminate|]. injection E as E. congruence.
Qed.
Print Assumptions C46_simple_date_option_refuted.
