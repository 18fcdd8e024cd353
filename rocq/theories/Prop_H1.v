(** * Property C31: HTTP/1 text. *)
From Coq Require Import String List NArith ZArith Bool Lia.
From Verif Require Import PyBase PyStr PyMerge Lib_Model Lib_Spec Lib_Proofs H1_Model H1_Spec H1_Proofs.
Import ListNotations.
Open Scope N_scope.
Open Scope py_scope.

(** White space of octets. *)
Lemma white_space c : white c -> is_space c = true.
Proof. apply is_space_white. Qed.
Lemma visible_space c : 33 <= c <= 126 -> is_space c = false.
Proof.
  intros H. destruct (is_space c) eqn:E; [|reflexivity]. apply is_space_white in E. destruct E; lia.
Qed.

Lemma one_word_token s : one_word s -> token is_space s.
Proof.
  intros [H1 H2]. split; [exact H1|]. apply Forall_forall. intros c Hc. destruct (is_space c) eqn:E; [|reflexivity].
  apply is_space_white in E. now apply H2 in Hc.
Qed.

Lemma one_line_text s : one_line s -> text is_space s.
Proof. intros [H1 H2]. split; [exact H1|]. now apply no_ends_space. Qed.

Lemma header_name_plain k : header_name k -> plain_name lower k.
Proof.
  intros (H1 & H2 & H3 & H4). split; [exact H1|]. split; [|tauto]. unfold lower. rewrite <- (map_id k) at 2.
  apply map_ext_in. intros c Hc. unfold lower_char. specialize (H2 c Hc).
  destruct (N.leb_spec 65 c), (N.leb_spec c 90); cbn; lia.
Qed.

Lemma ordinary_good avoid d : ordinary_headers avoid d -> good_headers is_space lower avoid d.
Proof.
  intros H k v Hin Hna. destruct (H k v Hin Hna) as [A B]. split; [now apply header_name_plain|].
  intros x Hx. apply one_line_text, B. now apply piece_of_split.
Qed.

Lemma get_or_in d k dflt (P : str -> Prop) : P dflt -> (forall v, In (k, v) d -> P v) -> P (get_or d k dflt).
Proof. intros H1 H2. unfold get_or. destruct (dget d k) eqn:E; [|exact H1]. apply H2. now apply dget_in. Qed.

(** ** C31, for the text forms of http1 (CRLF, colon blank) and of the
    simple codec (LF, colon), and any other choice of white space: [w] before
    the newline, [b] after the colon. *)
Section C31.
  Variable w b host version : str.
  Hypothesis Hw : forall c, In c w -> white c /\ c <> 10.
  Hypothesis Hb : forall c, In c b -> white c /\ c <> 10.
  Hypothesis Hhost : header_name host /\ hd 0 host <> 58.

  Lemma ws_spaces s : (forall c, In c s -> white c /\ c <> 10) -> spaces is_space s /\ ~ In 10 s.
  Proof.
    intros H. split.
    - apply Forall_forall. intros c Hc. apply is_space_white. now apply H.
    - intros Hc. now apply H in Hc.
  Qed.

  Lemma c31_request d : wf_request host d -> version <> [] -> one_line version ->
    exists d', parse_http1 (format_http1 d (w ++ [10]) (58 :: b) host version) true host = Ok d' /\ is_dict d' /\
      dget d' (lit ":version") = Some (get_or d (lit ":version") version) /\
      forall k, k <> lit ":version" -> dget d' k = dget d k.
  Proof.
    intros (HD & (m & Hm & Hmw) & (p & Hp & Hpw) & Hv & Hh & HO) Hv1 Hv2.
    destruct (ws_spaces w Hw) as [W1 W2]. destruct (ws_spaces b Hb) as [B1 B2]. destruct Hhost as [H1 H2].
    destruct (request_roundtrip is_space lower white_space visible_space w b host version W1 W2 B1 B2 (header_name_plain _ H1) H2 d m p HD Hh) as (d' & E & HD' & HL).
    - now apply in_dget. - now apply one_word_token. - now apply in_dget. - now apply one_word_token.
    - apply (get_or_in d (lit ":version") version (good_text_line is_space)).
      + split; [exact Hv1|now apply one_line_text].
      + intros v Hin. destruct (Hv v Hin). split; [assumption|now apply one_line_text].
    - now apply ordinary_good.
    - exists d'. split; [exact E|]. split; [exact HD'|]. split; [now rewrite HL|].
      intros k Hk. rewrite HL. destruct (str_eqb_spec k (lit ":version")); [contradiction|reflexivity].
  Qed.

  Lemma c31_response d : wf_response host d -> one_word version ->
    exists d', parse_http1 (format_http1 d (w ++ [10]) (58 :: b) host version) false host = Ok d' /\ is_dict d' /\
      dget d' (lit ":version") = Some (get_or d (lit ":version") version) /\
      dget d' (lit ":status-text") = Some (get_or d (lit ":status-text") (lit "?")) /\
      forall k, k <> lit ":version" -> k <> lit ":status-text" -> dget d' k = dget d k.
  Proof.
    intros (HD & Hm & (s & Hs & Hsw) & Hv & Ht & Hh & Hph & HO) Hv1.
    destruct (ws_spaces w Hw) as [W1 W2]. destruct (ws_spaces b Hb) as [B1 B2]. destruct Hhost as [H1 H2].
    destruct (response_roundtrip is_space lower white_space visible_space w b host version W1 W2 B1 B2 (header_name_plain _ H1) H2 d s HD Hph Hh) as (d' & E & HD' & HL).
    - now apply dget_none.
    - apply (get_or_in d (lit ":version") version (token is_space)); [now apply one_word_token|]. intros v Hin. now apply one_word_token, Hv.
    - now apply in_dget.
    - now apply one_word_token.
    - apply (get_or_in d (lit ":status-text") (lit "?") (good_text_line is_space)).
      + split; [discriminate|]. split; [cbn; intuition discriminate|]. split; reflexivity.
      + intros v Hin. destruct (Ht v Hin). split; [assumption|now apply one_line_text].
    - now apply ordinary_good.
    - exists d'. split; [exact E|]. split; [exact HD'|]. split; [now rewrite HL|]. split; [rewrite HL; reflexivity|].
      intros k Hk Hk2. rewrite HL. destruct (str_eqb_spec k (lit ":version")); [contradiction|].
      destruct (str_eqb_spec k (lit ":status-text")); [contradiction|reflexivity].
  Qed.
End C31.

Lemma crlf_ok : forall c, In c [13] -> white c /\ c <> 10.
Proof. intros c [<-|[]]. split; [right; lia|lia]. Qed.
Lemma blank_ok : forall c, In c [32] -> white c /\ c <> 10.
Proof. intros c [<-|[]]. split; [left; reflexivity|lia]. Qed.
Lemma host_ok : header_name (lit "host") /\ hd 0 (lit "host") <> 58.
Proof.
  split; [|discriminate]. split; [discriminate|]. split; [|cbn; intuition discriminate].
  intros c Hc. vm_compute in Hc. repeat (destruct Hc as [<-|Hc]; [lia|]). destruct Hc.
Qed.

Lemma not_white_not c : (c =? 32) || ((9 <=? c) && (c <=? 13)) = false -> ~ white c.
Proof.
  intros E [->|[H1 H2]]; [discriminate|]. apply N.leb_le in H1, H2. rewrite H1, H2, orb_true_r in E. discriminate.
Qed.

(** Same lookups (except the version), same content for the harness. *)
Lemma lookups_same_content (d d' : hdict) : is_dict d -> is_dict d' ->
  (forall k, ~ ignored_name k -> dget d' k = dget d k) -> same_content d d'.
Proof.
  intros H H' HL k y Hk. unfold carries. split; intros (v & x & Hin & HP).
  - exists v, x. split; [|exact HP]. apply dget_in. rewrite HL by exact Hk. now apply in_dget.
  - exists v, x. split; [|exact HP]. apply dget_in. rewrite <- HL by exact Hk. now apply in_dget.
Qed.

Theorem C31_http1_request_roundtrip : forall d, wf_request (lit "host") d ->
  exists d', http1_decompress true (http1_compress d) = Ok d' /\ is_dict d' /\
    dget d' (lit ":version") = Some (get_or d (lit ":version") (lit "HTTP/1.1")) /\
    forall k, k <> lit ":version" -> dget d' k = dget d k.
Proof.
  intros d H. apply (c31_request [13] [32] (lit "host") (lit "HTTP/1.1") crlf_ok blank_ok host_ok d H).
  - discriminate.
  - split; [cbn; intuition discriminate|]. right. split; apply not_white_not; vm_compute; reflexivity.
Qed.
Print Assumptions C31_http1_request_roundtrip.

Theorem C31_http1_response_roundtrip : forall d, wf_response (lit "host") d ->
  exists d', http1_decompress false (http1_compress d) = Ok d' /\ is_dict d' /\
    dget d' (lit ":version") = Some (get_or d (lit ":version") (lit "HTTP/1.1")) /\
    dget d' (lit ":status-text") = Some (get_or d (lit ":status-text") (lit "?")) /\
    forall k, k <> lit ":version" -> k <> lit ":status-text" -> dget d' k = dget d k.
Proof.
  intros d H. apply (c31_response [13] [32] (lit "host") (lit "HTTP/1.1") crlf_ok blank_ok host_ok d H).
  split; [discriminate|]. intros c Hc. apply not_white_not. vm_compute in Hc. repeat (destruct Hc as [<-|Hc]; [reflexivity|]). destruct Hc.
Qed.
Print Assumptions C31_http1_response_roundtrip.

(** Hence the harness reports no difference for http1. *)
Theorem C31_http1_passes_harness_check : forall ord (is_request : bool) d d',
  is_order ord -> (if is_request then wf_request (lit "host") d else wf_response (lit "host") d) ->
  http1_decompress is_request (http1_compress d) = Ok d' ->
  compare_headers ord d (lit "orig") d' (lit "http1") = [].
Proof.
  intros ord r d d' Ho Hwf E. apply compare_verdict; [exact Ho|]. destruct r.
  - destruct (C31_http1_request_roundtrip d Hwf) as (d2 & E2 & HD & _ & HL).
    assert (d2 = d') by congruence. subst d2. apply lookups_same_content; auto.
    + apply Hwf.
    + intros k Hk. apply HL. intros ->. apply Hk. now left.
  - destruct (C31_http1_response_roundtrip d Hwf) as (d2 & E2 & HD & _ & _ & HL).
    assert (d2 = d') by congruence. subst d2. apply lookups_same_content; auto.
    + apply Hwf.
    + intros k Hk. apply HL; intros ->; apply Hk; [now left|right; now left].
Qed.
Print Assumptions C31_http1_passes_harness_check.

Definition c31_req : hdict :=
  [(lit "accept", lit "a;q=0.5: x"); (lit ":method", lit "get"); (lit ":host", lit "h.com"); (lit ":path", lit "/a:b");
   (lit "x", lit "one" ++ [0] ++ [0] ++ lit "two words"); (lit ":scheme", lit "http")].

Example C31_example : http1_decompress true (http1_compress c31_req) =
  Ok [(lit "accept", lit "a;q=0.5: x"); (lit "x", lit "one" ++ [0] ++ [0] ++ lit "two words"); (lit ":scheme", lit "http");
      (lit ":method", lit "get"); (lit ":path", lit "/a:b"); (lit ":version", lit "HTTP/1.1"); (lit ":host", lit "h.com")].
Proof. vm_compute. reflexivity. Qed.

Lemma white_dec c : {white c} + {~ white c}.
Proof.
  destruct (is_space c) eqn:E; [left|right]; [now apply is_space_white|].
  intros H. apply is_space_white in H. congruence.
Qed.

Example C31_example_wf : wf_request (lit "host") c31_req.
Proof.
  assert (Hline : forall s, negb (existsb (N.eqb 10) s) && str_eqb (strip is_space s) s = true -> one_line s).
  { intros s H. apply andb_true_iff in H as [H1 H2]. split.
    - intros Hin. apply negb_true_iff in H1. assert (existsb (N.eqb 10) s = true); [|congruence].
      apply existsb_exists. exists 10. auto.
    - destruct s as [|a z]; [now left|right].
      destruct (str_eqb_spec (strip is_space (a :: z)) (a :: z)) as [E|]; [|discriminate].
      pose proof (strip_no_ends is_space (a :: z)) as [N1 N2]. rewrite E in N1, N2. rewrite last_rev. split.
      + cbn. intros Hw. apply is_space_white in Hw. congruence.
      + destruct (rev (a :: z)) as [|c r] eqn:Er; [apply (f_equal (@rev N)) in Er; rewrite rev_involutive in Er; discriminate|].
        cbn. intros Hw. apply is_space_white in Hw. congruence. }
  assert (Hword : forall s, negb (str_eqb s []) && forallb (fun c => negb (is_space c)) s = true -> one_word s).
  { intros s H. apply andb_true_iff in H as [H1 H2]. split.
    - intros ->. discriminate.
    - intros c Hc Hw. apply is_space_white in Hw. rewrite forallb_forall in H2. specialize (H2 c Hc). rewrite Hw in H2. discriminate. }
  unfold c31_req. split; [|split; [|split; [|split; [|split]]]].
  - repeat constructor; cbn; intuition discriminate.
  - exists (lit "get"). split; [cbn; tauto|]. apply Hword. reflexivity.
  - exists (lit "/a:b"). split; [cbn; tauto|]. apply Hword. reflexivity.
  - intros v Hin. cbn in Hin. intuition discriminate.
  - cbn. intuition discriminate.
  - intros k v Hin Hs.
    assert (Hn : forall k, negb (str_eqb k []) && forallb (fun c => negb ((65 <=? c) && (c <=? 90)) && negb (c =? 10)) k && negb (existsb (N.eqb 58) (tl k)) = true -> header_name k).
    { clear. intros k H. apply andb_true_iff in H as [H H3]. apply andb_true_iff in H as [H1 H2]. rewrite forallb_forall in H2.
      split; [intros ->; discriminate|]. split; [|split].
      - intros c Hc [A B]. specialize (H2 c Hc). apply N.leb_le in A, B. rewrite A, B in H2. discriminate.
      - intros Hc. specialize (H2 _ Hc). discriminate.
      - intros Hc. apply negb_true_iff in H3. assert (existsb (N.eqb 58) (tl k) = true); [|congruence]. apply existsb_exists. exists 58. auto. }
    assert (Hp : forall v, forallb (fun x => negb (existsb (N.eqb 10) x) && str_eqb (strip is_space x) x) (split_on 0 v) = true -> forall x, piece_of 0 v x -> one_line x).
    { intros v0 H x Hx. apply piece_of_split in Hx. rewrite forallb_forall in H. apply Hline. now apply H. }
    cbn [In] in Hin.
    repeat (destruct Hin as [Hin|Hin]; [injection Hin as <- <-; first [exfalso; apply Hs; cbn; tauto | split; [apply Hn; reflexivity|apply Hp; reflexivity]]|]).
    destruct Hin.
Qed.

(** Refuted without the hypotheses: a request whose path is empty (a URL such
    as http://h.com gives one) cannot be parsed back; a continuation line
    breaks the parser. *)
Theorem C31_http1_empty_path_refuted :
  http1_decompress true (http1_compress [(lit ":method", lit "get"); (lit ":path", []); (lit ":host", lit "h.com")])
    = Err IndexError /\
  http1_decompress true (http1_compress [(lit ":method", lit "get"); (lit ":path", lit "/"); (lit "a", lit "b" ++ [10] ++ lit " c")])
    = Err ValueError.
Proof. vm_compute. auto. Qed.
Print Assumptions C31_http1_empty_path_refuted.
