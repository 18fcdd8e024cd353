(** * Property C81: HTTP/1 text when strings are Unicode texts.

    The tool reads its messages with json.load, so header names and values
    are texts: what strip() and split() take for white space and what
    lower() does follow Unicode.  The theorems hold for any notion of white
    space [sp] that has the ASCII white space and no visible ASCII
    character, and any lower-casing [low]. *)
From Coq Require Import String List NArith ZArith Bool Lia.
From Verif Require Import PyBase PyStr PyMerge Lib_Model Lib_Spec Lib_Proofs H1_Model H1_Spec H1_Proofs Prop_H1.
Import ListNotations.
Open Scope N_scope.
Open Scope py_scope.

Definition white_like (sp : N -> bool) : Prop :=
  (forall c, white c -> sp c = true) /\ (forall c, 33 <= c <= 126 -> sp c = false).

(** Well-formed, as in H1_Spec.v. *)
Section Spec.
  Variable sp : N -> bool.
  Variable low : str -> str.

  Definition word_in (s : str) : Prop := s <> [] /\ forall c, In c s -> sp c = false.
  Definition line_in (s : str) : Prop := ~ In 10 s /\ (s = [] \/ sp (hd 0 s) = false /\ sp (last s 0) = false).
  Definition name_in (k : str) : Prop := k <> [] /\ low k = k /\ ~ In 10 k /\ ~ In 58 (tl k).

  Definition headers_in (special : list str) (d : hdict) : Prop :=
    forall k v, In (k, v) d -> ~ In k special -> name_in k /\ forall x, piece_of 0 v x -> line_in x.

  Definition request_in (d : hdict) : Prop :=
    NoDup (map fst d) /\
    (exists m, In (lit ":method", m) d /\ word_in m) /\
    (exists p, In (lit ":path", p) d /\ word_in p) /\
    (forall v, In (lit ":version", v) d -> v <> [] /\ line_in v) /\
    ~ In (lit "host") (map fst d) /\
    headers_in [lit ":method"; lit ":path"; lit ":version"] d.

  Definition response_in (d : hdict) : Prop :=
    NoDup (map fst d) /\
    ~ In (lit ":method") (map fst d) /\
    (exists s, In (lit ":status", s) d /\ word_in s) /\
    (forall v, In (lit ":version", v) d -> word_in v) /\
    (forall t, In (lit ":status-text", t) d -> t <> [] /\ line_in t) /\
    ~ In (lit "host") (map fst d) /\ ~ In (lit ":host") (map fst d) /\
    headers_in [lit ":version"; lit ":status"; lit ":status-text"] d.
End Spec.

Lemma word_token sp s : word_in sp s -> token sp s.
Proof. intros [H1 H2]. split; [exact H1|]. now apply Forall_forall. Qed.

Lemma line_text sp s : line_in sp s -> text sp s.
Proof.
  intros [H1 H2]. split; [exact H1|]. split.
  - destruct s as [|a s]; [exact I|]. destruct H2 as [H2|[H2 _]]; [discriminate|exact H2].
  - destruct H2 as [->|[_ H2]]; [exact I|]. rewrite last_rev in H2. destruct (rev s); [exact I|exact H2].
Qed.

Lemma headers_good sp low avoid d : headers_in sp low avoid d -> good_headers sp low avoid d.
Proof.
  intros H k v Hin Hna. destruct (H k v Hin Hna) as [A B]. split; [exact A|]. intros x Hx. apply line_text, B. now apply piece_of_split.
Qed.

Lemma version_word sp : white_like sp -> token sp (lit "HTTP/1.1").
Proof.
  intros [_ H]. split; [discriminate|]. apply Forall_forall. intros c Hc. apply H.
  vm_compute in Hc. repeat (destruct Hc as [<-|Hc]; [lia|]). destruct Hc.
Qed.

Lemma token_line sp s : white_like sp -> token sp s -> good_text_line sp s.
Proof.
  intros [H _] [H1 H2]. rewrite Forall_forall in H2. split; [exact H1|]. split.
  - intros Hin. apply H2 in Hin. rewrite H in Hin; [discriminate|right; lia].
  - split.
    + destruct s; [exact I|]. apply H2. now left.
    + destruct (rev s) as [|x r] eqn:E; [exact I|]. apply H2, in_rev. rewrite E. now left.
Qed.

Lemma spaces_one sp c : white_like sp -> white c -> spaces sp [c].
Proof. intros [H _] Hc. constructor; [now apply H|constructor]. Qed.

Lemma host_plain low : low (lit "host") = lit "host" -> plain_name low (lit "host").
Proof. intros E. split; [discriminate|]. split; [exact E|]. cbn. intuition discriminate. Qed.

Theorem C81_request : forall sp low, white_like sp -> low (lit "host") = lit "host" -> forall d, request_in sp low d ->
  exists d', http1_decompress_in sp low true (http1_compress d) = Ok d' /\ is_dict d' /\
    dget d' (lit ":version") = Some (get_or d (lit ":version") (lit "HTTP/1.1")) /\
    forall k, k <> lit ":version" -> dget d' k = dget d k.
Proof.
  intros sp low HS HL d (HD & (m & Hm & Hmw) & (p & Hp & Hpw) & Hv & Hh & HO). pose proof HS as [S1 S2].
  destruct (request_roundtrip sp low S1 S2 [13] [32] (lit "host") (lit "HTTP/1.1")
    (spaces_one sp 13 HS ltac:(right; lia)) ltac:(intros [H|[]]; discriminate) (spaces_one sp 32 HS ltac:(now left)) ltac:(intros [H|[]]; discriminate)
    (host_plain low HL) ltac:(discriminate) d m p HD Hh) as (d' & E & HD' & HG).
  - now apply in_dget. - now apply word_token. - now apply in_dget. - now apply word_token.
  - apply (get_or_in d (lit ":version") (lit "HTTP/1.1") (good_text_line sp)).
    + apply token_line; [exact HS|now apply version_word].
    + intros v Hin. destruct (Hv v Hin). split; [assumption|now apply line_text].
  - now apply headers_good.
  - exists d'. split; [exact E|]. split; [exact HD'|]. split; [now rewrite HG|].
    intros k Hk. rewrite HG. destruct (str_eqb_spec k (lit ":version")); [contradiction|reflexivity].
Qed.
Print Assumptions C81_request.

Theorem C81_response : forall sp low, white_like sp -> low (lit "host") = lit "host" -> forall d, response_in sp low d ->
  exists d', http1_decompress_in sp low false (http1_compress d) = Ok d' /\ is_dict d' /\
    dget d' (lit ":version") = Some (get_or d (lit ":version") (lit "HTTP/1.1")) /\
    dget d' (lit ":status-text") = Some (get_or d (lit ":status-text") (lit "?")) /\
    forall k, k <> lit ":version" -> k <> lit ":status-text" -> dget d' k = dget d k.
Proof.
  intros sp low HS HL d (HD & Hm & (s & Hs & Hsw) & Hv & Ht & Hh & Hph & HO). pose proof HS as [S1 S2].
  destruct (response_roundtrip sp low S1 S2 [13] [32] (lit "host") (lit "HTTP/1.1")
    (spaces_one sp 13 HS ltac:(right; lia)) ltac:(intros [H|[]]; discriminate) (spaces_one sp 32 HS ltac:(now left)) ltac:(intros [H|[]]; discriminate)
    (host_plain low HL) ltac:(discriminate) d s HD Hph Hh) as (d' & E & HD' & HG).
  - now apply dget_none.
  - apply (get_or_in d (lit ":version") (lit "HTTP/1.1") (token sp)); [now apply version_word|]. intros v Hin. now apply word_token, Hv.
  - now apply in_dget.
  - now apply word_token.
  - apply (get_or_in d (lit ":status-text") (lit "?") (good_text_line sp)).
    + apply token_line; [exact HS|]. split; [discriminate|]. constructor; [apply S2; cbn; lia|constructor].
    + intros v Hin. destruct (Ht v Hin). split; [assumption|now apply line_text].
  - now apply headers_good.
  - exists d'. split; [exact E|]. split; [exact HD'|]. split; [now rewrite HG|]. split; [rewrite HG; reflexivity|].
    intros k Hk Hk2. rewrite HG. destruct (str_eqb_spec k (lit ":version")); [contradiction|].
    destruct (str_eqb_spec k (lit ":status-text")); [contradiction|reflexivity].
Qed.
Print Assumptions C81_response.

(** Hence the harness reports no difference. *)
Theorem C81_passes_harness_check : forall sp low, white_like sp -> low (lit "host") = lit "host" ->
  forall ord (is_request : bool) d d', is_order ord -> (if is_request then request_in sp low d else response_in sp low d) ->
  http1_decompress_in sp low is_request (http1_compress d) = Ok d' ->
  compare_headers ord d (lit "orig") d' (lit "http1") = [].
Proof.
  intros sp low HS HL ord r d d' Ho Hwf E. apply compare_verdict; [exact Ho|]. destruct r.
  - destruct (C81_request sp low HS HL d Hwf) as (d2 & E2 & HD & _ & HG).
    assert (d2 = d') by congruence. subst d2. apply lookups_same_content; auto.
    + apply Hwf.
    + intros k Hk. apply HG. intros ->. apply Hk. now left.
  - destruct (C81_response sp low HS HL d Hwf) as (d2 & E2 & HD & _ & _ & HG).
    assert (d2 = d') by congruence. subst d2. apply lookups_same_content; auto.
    + apply Hwf.
    + intros k Hk. apply HG; intros ->; apply Hk; [now left|right; now left].
Qed.
Print Assumptions C81_passes_harness_check.

(** The white space of Python 3's str (str.isspace). *)
Definition unicode_space (c : N) : bool :=
  ((9 <=? c) && (c <=? 13)) || ((28 <=? c) && (c <=? 32)) || (c =? 133) || (c =? 160) || (c =? 5760) ||
  ((8192 <=? c) && (c <=? 8202)) || (c =? 8232) || (c =? 8233) || (c =? 8239) || (c =? 8287) || (c =? 12288).

Lemma unicode_white_like : white_like unicode_space.
Proof.
  split.
  - intros c [->|H]; [reflexivity|]. unfold unicode_space. destruct (N.leb_spec 9 c), (N.leb_spec c 13); try lia; reflexivity.
  - intros c H. unfold unicode_space.
    repeat match goal with
    | |- context [?a <=? ?b] => destruct (N.leb_spec a b); try lia
    | |- context [?a =? ?b] => destruct (N.eqb_spec a b); try lia
    end; reflexivity.
Qed.

(** A request with non-ASCII text meets the hypotheses; so do octets. *)
Definition c81_req : hdict :=
  [(lit ":method", lit "get"); (lit ":path", lit "/" ++ [233]); (lit "x-note", [20013; 160; 25991] ++ [0] ++ lit "b")].

Example C81_example : request_in unicode_space lower c81_req /\ white_like is_space /\
  http1_decompress_in unicode_space lower true (http1_compress c81_req) =
    Ok [(lit "x-note", [20013; 160; 25991] ++ [0] ++ lit "b"); (lit ":method", lit "get"); (lit ":path", lit "/" ++ [233]);
        (lit ":version", lit "HTTP/1.1")].
Proof.
  split; [|split; [split; [exact white_space|exact visible_space]|vm_compute; reflexivity]].
  split; [repeat constructor; cbn; intuition discriminate|].
  assert (HW : forall s, negb (str_eqb s []) && forallb (fun c => negb (unicode_space c)) s = true -> word_in unicode_space s).
  { intros s H. apply andb_true_iff in H as [H1 H2]. split; [intros ->; discriminate|]. intros c Hc. rewrite forallb_forall in H2.
    apply H2 in Hc. now apply negb_true_iff in Hc. }
  split; [exists (lit "get"); split; [now left|apply HW; reflexivity]|].
  split; [exists (lit "/" ++ [233]); split; [right; now left|apply HW; reflexivity]|].
  split; [intros v Hv; cbn in Hv; intuition discriminate|].
  split; [cbn; intuition discriminate|].
  intros k v Hin Hs. destruct Hin as [E|[E|[E|[]]]]; injection E as <- <-; try (exfalso; apply Hs; cbn; tauto).
  split.
  - split; [discriminate|]. split; [reflexivity|]. cbn. intuition discriminate.
  - intros x Hx. apply piece_of_split in Hx. vm_compute in Hx. destruct Hx as [<-|[<-|[]]].
    + split; [cbn; intuition discriminate|]. right. now vm_compute.
    + split; [cbn; intuition discriminate|]. right. now vm_compute.
Qed.

(** Refuted for texts that are well-formed only by the ASCII notions: a value
    ending in U+00A0 loses it and the harness reports it; a path with an
    ideographic space is cut. *)
Theorem C81_ascii_notions_refuted : exists d, wf_request (lit "host") d /\ exists d',
  http1_decompress_in unicode_space lower true (http1_compress d) = Ok d' /\
  (forall ord, is_order ord -> compare_headers ord d (lit "orig") d' (lit "http1") <> []) /\
  dget d' (lit ":path") <> dget d (lit ":path").
Proof.
  exists [(lit ":method", lit "get"); (lit ":path", lit "/a" ++ [12288] ++ lit "b"); (lit "x", lit "a" ++ [160])]. split.
  - split; [repeat constructor; cbn; intuition discriminate|].
    assert (HW : forall s, negb (str_eqb s []) && forallb (fun c => negb (is_space c)) s = true -> one_word s).
    { intros s H. apply andb_true_iff in H as [H1 H2]. split; [intros ->; discriminate|]. intros c Hc Hw. apply is_space_white in Hw.
      rewrite forallb_forall in H2. specialize (H2 c Hc). rewrite Hw in H2. discriminate. }
    split; [exists (lit "get"); split; [now left|apply HW; reflexivity]|].
    split; [eexists; split; [right; now left|apply HW; reflexivity]|].
    split; [intros v Hv; cbn in Hv; intuition discriminate|].
    split; [cbn; intuition discriminate|].
    intros k v Hin Hs. destruct Hin as [E|[E|[E|[]]]]; injection E as <- <-; try (exfalso; apply Hs; cbn; tauto).
    split.
    + split; [discriminate|]. split; [intros c Hc; vm_compute in Hc; destruct Hc as [<-|[]]; lia|]. cbn. intuition discriminate.
    + intros x Hx. apply piece_of_split in Hx. vm_compute in Hx. destruct Hx as [<-|[]].
      split; [cbn; intuition discriminate|]. right. split; apply not_white_not; reflexivity.
  - eexists. split; [vm_compute; reflexivity|]. split.
    + intros ord Ho E. apply compare_verdict in E; [|exact Ho]. specialize (E (lit "x") (lit "a" ++ [160])).
      assert (Hn : ~ ignored_name (lit "x")).
      { unfold ignored_name. intros H. vm_compute in H. intuition discriminate. }
      destruct (E Hn) as [E1 _]. clear E. destruct E1 as (v & x & Hin & Hx & Hy).
      { exists (lit "a" ++ [160]), (lit "a" ++ [160]). split; [right; right; now left|]. split; [|apply trimmed_strip; vm_compute; reflexivity].
        apply piece_of_split. vm_compute. now left. }
      destruct Hin as [Q|[Q|[Q|[Q|[]]]]]; try discriminate Q. assert (v = [97]) as -> by congruence.
      apply piece_of_split in Hx. vm_compute in Hx. destruct Hx as [<-|[]]. apply trimmed_strip in Hy. discriminate Hy.
    + vm_compute. discriminate.
Qed.
Print Assumptions C81_ascii_notions_refuted.
