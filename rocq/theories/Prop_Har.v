(** * Property C122: the status of a response read from a HAR file. *)
From Coq Require Import String List NArith ZArith Bool Arith Lia.
From Verif Require Import PyBase PyStr Lib_Model Lib_Proofs Prop_Lib.
Import ListNotations.
Open Scope N_scope.
Open Scope py_scope.

(** ** Specification *)

Definition digit_char (c : N) : Prop := 48 <= c <= 57.
Definition newline : N := 10.
(** What becomes of the text of a status: the digits at its beginning stay, the rest of the
    first line goes, with the end of the line; further lines stay. *)
Inductive shown_status : str -> str -> Prop :=
| status_line ds rest : Forall digit_char ds -> (forall c r, rest = c :: r -> ~ digit_char c) -> ~ In newline rest -> shown_status (ds ++ rest) ds
| status_lines ds rest more : Forall digit_char ds -> (forall c r, rest = c :: r -> ~ digit_char c) -> ~ In newline rest ->
    shown_status (ds ++ rest ++ newline :: more) (ds ++ newline :: more).

(** The phrases of RFC 7231, section 6.1, with 207 of RFC 4918 and 308 of RFC 7538. *)
Definition registered : list (str * str) := map (fun '(a, b) => (lit a, lit b)) [
  ("100", "Continue"); ("101", "Switching Protocols"); ("200", "OK"); ("201", "Created"); ("202", "Accepted"); ("203", "Non-Authoritative Information");
  ("204", "No Content"); ("205", "Reset Content"); ("206", "Partial Content"); ("207", "Multi-Status"); ("300", "Multiple Choices"); ("301", "Moved Permanently");
  ("302", "Found"); ("303", "See Other"); ("304", "Not Modified"); ("305", "Use Proxy"); ("307", "Temporary Redirect"); ("308", "Permanent Redirect");
  ("400", "Bad Request"); ("401", "Unauthorized"); ("402", "Payment Required"); ("403", "Forbidden"); ("404", "Not Found"); ("405", "Method Not Allowed");
  ("406", "Not Acceptable"); ("407", "Proxy Authentication Required"); ("408", "Request Timeout"); ("409", "Conflict"); ("410", "Gone"); ("411", "Length Required");
  ("412", "Precondition Failed"); ("413", "Payload Too Large"); ("414", "URI Too Long"); ("415", "Unsupported Media Type"); ("416", "Range Not Satisfiable");
  ("417", "Expectation Failed"); ("426", "Upgrade Required"); ("500", "Internal Server Error"); ("501", "Not Implemented"); ("502", "Bad Gateway");
  ("503", "Service Unavailable"); ("504", "Gateway Timeout"); ("505", "HTTP Version Not Supported")]%string.
(** The registered statuses of which the tool does not know the phrase. *)
Definition forgotten : list str := map lit ["100"; "101"; "305"; "402"; "407"; "411"; "412"; "413"; "414"; "415"; "416"; "417"; "426"; "501"; "502"; "503"; "504"; "505"]%string.
(** The phrase put in for a status without a text. *)
Inductive put_in (status : str) : str -> Prop :=
| put_phrase p : In (status, p) registered -> ~ In status forgotten -> put_in status p
| put_unknown : In status forgotten \/ ~ In status (map fst registered) -> put_in status (lit "unknown").

(** ** Proofs *)

Lemma take_digits_spec s : exists ds rest, s = ds ++ rest /\ take_digits s = (ds, rest) /\ Forall digit_char ds /\ forall c r, rest = c :: r -> ~ digit_char c.
Proof.
  induction s as [|c s (ds & rest & E & T & F & H)]; cbn [take_digits]; [exists [], []; repeat split; [constructor|discriminate]|].
  destruct (N.leb_spec 48 c) as [L|L]; cbn [andb]; [destruct (N.leb_spec c 57) as [L'|L']|].
  - rewrite T. exists (c :: ds), rest. split; [now rewrite E|]. split; [reflexivity|]. split; [constructor; [now split|exact F]|exact H].
  - exists [], (c :: s). repeat split; [constructor|]. intros c' r E' [_ X]. injection E' as <- _. lia.
  - exists [], (c :: s). repeat split; [constructor|]. intros c' r E' [X _]. injection E' as <- _. lia.
Qed.
Lemma take_digits_app ds rest : Forall digit_char ds -> (forall c r, rest = c :: r -> ~ digit_char c) -> take_digits (ds ++ rest) = (ds, rest).
Proof.
  intros F H. induction F as [|c ds [A B] F IH]; cbn [app take_digits].
  - destruct rest as [|c r]; [reflexivity|]. cbn [take_digits]. destruct (N.leb_spec 48 c); cbn [andb]; [|reflexivity]. destruct (N.leb_spec c 57); [|reflexivity]. now destruct (H c r eq_refl).
  - apply N.leb_le in A, B. rewrite A, B. cbn [andb]. now rewrite IH.
Qed.
Lemma split_once_none c s : ~ In c s -> split_once c s = (s, None).
Proof. pose proof (split_once_spec c s) as H. destruct (split_once c s) as [a [b|]]; destruct H as [H1 H2]; intros H; [|now subst]. exfalso. apply H. rewrite H1. apply in_or_app. right. now left. Qed.

(** ** C122 *)

Theorem C122_status : forall urlsplit e rq rs, har2hdrs urlsplit [e] = Ok ([rq], [rs]) ->
  forall out, dget rs (lit ":status") = Some out <-> shown_status (h_status e) out.
Proof.
  intros urlsplit e rq rs E out. destruct (C49_har_fields urlsplit e rq rs E) as (_ & _ & _ & hq & hs & _ & _ & _ & _ & H & _).
  rewrite H by discriminate. change (response_fields e (lit ":status")) with (Some (status_digits (h_status e))). cbn iota. generalize (h_status e). clear. intros s. split.
  - intros E. assert (Eo : status_digits s = out) by congruence. clear E. subst out. destruct (take_digits_spec s) as (ds & rest & -> & T & F & Hr). unfold status_digits. rewrite T.
    pose proof (split_once_spec 10 rest) as Sp. destruct (split_once 10 rest) as [a [b|]]; destruct Sp as [E Hn].
    + subst rest. apply status_lines; [exact F| |exact Hn]. intros c r ->. exact (Hr c _ eq_refl).
    + subst a. now apply status_line.
  - intros H. f_equal. destruct H as [ds rest F Hr Hn|ds rest more F Hr Hn]; unfold status_digits.
    + rewrite (take_digits_app ds rest F Hr). now rewrite split_once_none.
    + rewrite take_digits_app; [|exact F|].
      * now rewrite split_once_app.
      * intros c r E [A B]. destruct rest as [|x rest]; cbn [app] in E; injection E as <- _; [unfold newline in *; lia|]. now apply (Hr x rest eq_refl).
Qed.
Print Assumptions C122_status.

(** A status text of its own is kept without the blanks around it, otherwise the status's
    phrase is put in if it is known. *)
Theorem C122_text : forall urlsplit e rq rs, har2hdrs urlsplit [e] = Ok ([rq], [rs]) ->
  exists status text, dget rs (lit ":status") = Some status /\ dget rs (lit ":status-text") = Some text /\
  (trimmed_text e <> [] -> text = trimmed_text e) /\ (trimmed_text e = [] -> forall p, text = p <-> put_in status p).
Proof.
  intros urlsplit e rq rs E. destruct (C49_har_fields urlsplit e rq rs E) as (scheme0 & path0 & query0 & hq0 & hs0 & _ & _ & _ & _ & Hf & Ht).
  clear Ht. assert (Es : dget rs (lit ":status") = Some (status_digits (h_status e))) by (rewrite Hf by discriminate; reflexivity).
  unfold har2hdrs in E. cbn [har_loop] in E. apply bind_ok in E as ([[scheme path] query] & _ & E). clear Hf. destruct (mem_str (lower scheme) [lit "http"; lit "https"]); [|discriminate].
  apply bind_ok in E as (q & _ & E). apply bind_ok in E as (r & Er & E). cbn [app] in E. assert (r = rs) by congruence. subst r. clear E. unfold har_response in Er. apply bind_ok in Er as (hs & _ & Er).
  unfold trimmed_text in *. set (st := status_digits (h_status e)) in *. set (t := strip is_space (h_status_text e)) in *.
  eexists st, _. split; [exact Es|]. split; [|split].
  - set (tx := match t with [] => match dget STATUS_PHRASES st with Some p => p | None => lit "unknown" end | n :: l => n :: l end) in *. clear Es.
    assert (Er' : rs = dset (dset (dset hs (lit ":status") st) (lit ":status-text") tx) (lit ":version") (h_res_version e)) by congruence.
    rewrite Er', dget_dset. cbn [str_eqb]. destruct (str_eqb_spec (lit ":status-text") (lit ":version")) as [X|_]; [discriminate X|].
    rewrite dget_dset. destruct (str_eqb_spec (lit ":status-text") (lit ":status-text")) as [_|X]; [|congruence]. reflexivity.
  - intros Hn. cbv zeta. now destruct t.
  - intros Et. rewrite Et. cbn iota. clearbody st. clear. intros p.
    assert (A : forall s q, dget STATUS_PHRASES s = Some q -> put_in s q).
    { intros s q H. apply dget_in in H. constructor 1.
      - assert (I : forall x, In x STATUS_PHRASES -> In x registered).
        { assert (B : forallb (fun x => existsb (fun y => str_eqb (fst x) (fst y) && str_eqb (snd x) (snd y)) registered) STATUS_PHRASES = true) by (vm_compute; reflexivity).
          intros [k v] Hx. rewrite forallb_forall in B. specialize (B _ Hx). apply existsb_exists in B as ([k' v'] & Hy & B). cbn [fst snd] in B. apply andb_true_iff in B as [B1 B2].
          destruct (str_eqb_spec k k') as [->|]; [|discriminate]. destruct (str_eqb_spec v v') as [->|]; [|discriminate]. exact Hy. }
        now apply I.
      - assert (B : forallb (fun x => negb (existsb (str_eqb (fst x)) forgotten)) STATUS_PHRASES = true) by (vm_compute; reflexivity).
        rewrite forallb_forall in B. specialize (B _ H). cbn [fst] in B. apply negb_true_iff in B. intros Hf. rewrite <- not_true_iff_false in B. apply B. apply existsb_exists. exists s. split; [exact Hf|].
        destruct (str_eqb_spec s s); congruence. }
    assert (B : forall s, dget STATUS_PHRASES s = None -> In s forgotten \/ ~ In s (map fst registered)).
    { intros s H. destruct (in_dec (list_eq_dec N.eq_dec) s (map fst registered)) as [I|I]; [|now right]. left.
      assert (B : forallb (fun x => match dget STATUS_PHRASES x with Some _ => true | None => existsb (str_eqb x) forgotten end) (map fst registered) = true) by (vm_compute; reflexivity).
      rewrite forallb_forall in B. specialize (B _ I). rewrite H in B. apply existsb_exists in B as (y & Hy & B). destruct (str_eqb_spec s y) as [->|]; [exact Hy|discriminate]. }
    assert (Fn : forall k a b, In (k, a) registered -> In (k, b) registered -> a = b).
    { assert (B' : forallb (fun x => forallb (fun y => negb (str_eqb (fst x) (fst y)) || str_eqb (snd x) (snd y)) registered) registered = true) by (vm_compute; reflexivity).
      intros k a b Ha Hb. rewrite forallb_forall in B'. specialize (B' _ Ha). rewrite forallb_forall in B'. specialize (B' _ Hb). cbn [fst snd] in B'.
      destruct (str_eqb_spec k k) as [_|]; [|congruence]. cbn [negb orb] in B'. now destruct (str_eqb_spec a b). }
    destruct (dget STATUS_PHRASES st) as [q|] eqn:Ed; [specialize (A _ _ Ed)|specialize (B _ Ed)]; split.
    + intros ->. exact A.
    + intros H. destruct A as [q Ha Hf|[Hf|Hf]].
      * destruct H as [p Hp _|[Hx|Hx]]; [exact (Fn _ _ _ Ha Hp)|now destruct (Hf Hx)|exfalso; apply Hx, (in_map fst _ _ Ha)].
      * destruct H as [p Hp Hp'|_]; [now destruct (Hp' Hf)|reflexivity].
      * destruct H as [p Hp Hp'|_]; [exfalso; apply Hf, (in_map fst _ _ Hp)|reflexivity].
    + intros <-. now constructor 2.
    + intros H. destruct H as [p Hp Hp'|_]; [|reflexivity]. destruct B as [B|B]; [now destruct (Hp' B)|exfalso; apply B, (in_map fst _ _ Hp)].
Qed.
Print Assumptions C122_text.

(** A registered status of which the phrase is not known. *)
Definition har_of (status text : string) : har_entry := mkHar (lit "http://a/") (lit "GET") (lit "HTTP/1.1") [] (lit status) (lit text) (lit "HTTP/1.1") [].
Definition shown (status text : string) : option (option str * option str) :=
  match har2hdrs (fun _ => Ok (lit "http", lit "/", [])) [har_of status text] with Ok ([_], [rs]) => Some (dget rs (lit ":status"), dget rs (lit ":status-text")) | _ => None end.
Theorem C122_registered_refuted : exists urlsplit e rq rs p, har2hdrs urlsplit [e] = Ok ([rq], [rs]) /\ h_status_text e = [] /\ In (h_status e, p) registered /\ dget rs (lit ":status-text") <> Some p.
Proof.
  exists (fun _ => Ok (lit "http", lit "/", [])), (har_of "503" ""). eexists _, _, (lit "Service Unavailable"). split; [reflexivity|]. split; [reflexivity|]. split.
  - assert (B : existsb (fun y => str_eqb (lit "503") (fst y) && str_eqb (lit "Service Unavailable") (snd y)) registered = true) by (vm_compute; reflexivity).
    apply existsb_exists in B as ([k v] & Hy & B). cbn [fst snd] in B. apply andb_true_iff in B as [B1 B2]. destruct (str_eqb_spec (lit "503") k) as [<-|]; [|discriminate]. destruct (str_eqb_spec (lit "Service Unavailable") v) as [<-|]; [|discriminate]. exact Hy.
  - vm_compute. discriminate.
Qed.
Print Assumptions C122_registered_refuted.

Example C122_case : shown "200" "" = Some (Some (lit "200"), Some (lit "OK")) /\ shown "404 gone" "  Nothing here " = Some (Some (lit "404"), Some (lit "Nothing here")) /\
  shown "200/1" "" = Some (Some (lit "200"), Some (lit "OK")) /\ shown "503" "" = Some (Some (lit "503"), Some (lit "unknown")) /\ shown "x" " " = Some (Some [], Some (lit "unknown")).
Proof. vm_compute. auto 10. Qed.
