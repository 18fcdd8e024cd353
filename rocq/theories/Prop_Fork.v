(** * C86: the fork codec and its child.

    A session in which the parent hands over one message after the other and
    reads an answer to each: whatever the capacities of the pipes and the
    interleaving of the two processes, it ends, it is never stuck, and every
    call returns the text of its own message; false for a message with a line
    of white space inside. *)
From Coq Require Import String List NArith ZArith Bool Lia Arith ZifyN ZifyNat.
From Verif Require Import PyBase PyStr Lib_Model H1_Model Fork_Model Fork_Proofs.
Import ListNotations.
Open Scope N_scope.

(** No execution goes on for ever, whatever the messages. *)
Theorem C86_ends : forall cd cu s, Acc (fun t s => step cd cu s t) s.
Proof. exact all_end. Qed.
Print Assumptions C86_ends.

(** Messages of one block: no deadlock, and the answers are in lock step. *)
Theorem C86_session : forall cd cu ms bodies s, 0 < cd -> 0 < cu ->
  Forall2 one_block ms bodies -> runs cd cu (start ms) s ->
  (finished s bodies \/ exists t, step cd cu s t) /\ (forall r, finished s r -> r = bodies).
Proof.
  intros cd cu ms bodies s C1 C2 H R. pose proof (inv_runs cd cu ms bodies s H R) as I. split.
  - now apply inv_progress.
  - intros r F. eapply inv_finished; eauto.
Qed.
Print Assumptions C86_session.

(** ** Which headers make one block *)

Lemma dget_in {V} (d : dict V) k v : dget d k = Some v -> In (k, v) d.
Proof.
  induction d as [|[k' v'] d IH]; cbn; [discriminate|]. destruct (str_eqb_spec k k') as [->|N]; intros E; [left|right; auto].
  congruence.
Qed.

Lemma get_or_newline (d : hdict) k dflt : (forall k v, In (k, v) d -> ~ In 10 k /\ ~ In 10 v) -> ~ In 10 dflt -> ~ In 10 (get_or d k dflt).
Proof.
  intros H Hd. unfold get_or. destruct (dget d k) as [v|] eqn:E; [|exact Hd]. apply dget_in in E. now apply (H k v).
Qed.

Lemma header_lines (kv : str * str) : ~ In 10 (fst kv) -> ~ In 10 (snd kv) ->
  exists ls, h1_header [13; 10] (lit ": ") (lit "host") kv = lines_text ls /\ Forall visible ls.
Proof.
  intros Hk Hv. unfold h1_header.
  set (key := if str_eqb (fst kv) (lit ":host") then lit "host" else fst kv).
  assert (Hkey : ~ In 10 key).
  { unfold key. destruct (str_eqb (fst kv) (lit ":host")); [|exact Hk].
    change (~ In 10 [104; 111; 115; 116]). cbn. intuition discriminate. }
  assert (Hs : forall p, In p (split_on 0 (snd kv)) -> ~ In 10 p).
  { intros p Hp Hi. apply Hv. eapply split_on_in; eauto. }
  revert Hs. generalize (split_on 0 (snd kv)). intros ps Hps.
  exists (map (fun v => key ++ lit ": " ++ v ++ [13]) ps). split.
  - unfold lines_text. clear Hps. induction ps as [|p ps IH]; [reflexivity|]. cbn [map flat_map]. rewrite IH.
    rewrite <- !app_assoc. reflexivity.
  - apply Forall_forall. intros l Hl. apply in_map_iff in Hl as (p & <- & Hp). split.
    + change (lit ": ") with [58; 32]. rewrite !in_app_iff. cbn. intros [I|[I|[I|I]]]; auto.
      * destruct I as [I|[I|[]]]; discriminate.
      * now apply (Hps p).
      * destruct I as [I|[]]; discriminate.
    + exists 58. change (lit ": ") with [58; 32]. split; [|reflexivity]. rewrite in_app_iff. right. now left.
Qed.

Lemma headers_lines (d : hdict) avoid : (forall k v, In (k, v) d -> ~ In 10 k /\ ~ In 10 v) ->
  exists ls, flat_map (fun kv => if mem_str (fst kv) avoid then [] else h1_header [13; 10] (lit ": ") (lit "host") kv) d = lines_text ls
             /\ Forall visible ls.
Proof.
  induction d as [|kv d IH]; intros H; [exists []; split; [reflexivity|constructor]|].
  destruct IH as (ls & E & F). { intros k v I. apply (H k v). now right. }
  cbn [flat_map]. rewrite E. destruct (mem_str (fst kv) avoid).
  - exists ls. auto.
  - destruct (header_lines kv) as (l1 & E1 & F1); try (destruct kv as [k v]; apply (H k v); now left).
    exists (l1 ++ ls). rewrite lines_text_app, E1. split; [reflexivity|]. apply Forall_app. auto.
Qed.

(** Headers without a newline, and a version which shows something. *)
Theorem C86_headers : forall d : hdict,
  (forall k v, In (k, v) d -> ~ In 10 k /\ ~ In 10 v) ->
  (forall v, dget d (lit ":version") = Some v -> exists c, In c v /\ is_space c = false) ->
  exists body, fork_text d = body ++ [13; 10] /\ one_block (fork_text d) body.
Proof.
  intros d H Hv.
  assert (V : exists c, In c (get_or d (lit ":version") (lit "HTTP/1.1")) /\ is_space c = false).
  { unfold get_or. destruct (dget d (lit ":version")) as [v|] eqn:E; [auto|]. exists 72.
    change (lit "HTTP/1.1") with [72; 84; 84; 80; 47; 49; 46; 49]. split; [now left|reflexivity]. }
  assert (NV : ~ In 10 (get_or d (lit ":version") (lit "HTTP/1.1"))).
  { apply get_or_newline; auto. change (lit "HTTP/1.1") with [72; 84; 84; 80; 47; 49; 46; 49]. cbn. intuition discriminate. }
  assert (NS : ~ In 10 (get_or d (lit ":status-text") (lit "?"))).
  { apply get_or_newline; auto. change (lit "?") with [63]. cbn. intuition discriminate. }
  assert (N0 : forall k, ~ In 10 (get_or d k [])). { intros k. apply get_or_newline; auto. }
  assert (T : exists top avoid, visible top /\ fork_text d = (top ++ [10]) ++
    flat_map (fun kv => if mem_str (fst kv) avoid then [] else h1_header [13; 10] (lit ": ") (lit "host") kv) d ++ [13; 10]).
  { unfold fork_text, format_http1. destruct (din d (lit ":method")).
    - exists (get_or d (lit ":method") [] ++ [32] ++ get_or d (lit ":path") [] ++ [32] ++ get_or d (lit ":version") (lit "HTTP/1.1") ++ [13]).
      exists [lit ":method"; lit ":path"; lit ":version"]. split; [split|].
      + rewrite !in_app_iff. intros [I|[I|[I|[I|[I|I]]]]]; try (now apply N0 in I); auto; cbn in I; intuition discriminate.
      + destruct V as (c & Hc & E). exists c. split; [|exact E]. rewrite !in_app_iff. tauto.
      + rewrite <- !app_assoc. reflexivity.
    - exists (get_or d (lit ":version") (lit "HTTP/1.1") ++ [32] ++ get_or d (lit ":status") [] ++ [32] ++ get_or d (lit ":status-text") (lit "?") ++ [13]).
      exists [lit ":version"; lit ":status"; lit ":status-text"]. split; [split|].
      + rewrite !in_app_iff. intros [I|[I|[I|[I|[I|I]]]]]; try (now apply N0 in I); auto; cbn in I; intuition discriminate.
      + destruct V as (c & Hc & E). exists c. split; [|exact E]. rewrite !in_app_iff. tauto.
      + rewrite <- !app_assoc. reflexivity. }
  destruct T as (top & avoid & Ht & E). destruct (headers_lines d avoid H) as (ls & El & Fl). rewrite El in E.
  exists (lines_text (top :: ls)). split.
  - rewrite E. cbn [lines_text flat_map]. fold (lines_text ls). now rewrite <- !app_assoc.
  - exists (top :: ls), [13]. repeat split.
    + rewrite E. cbn [lines_text flat_map]. fold (lines_text ls). now rewrite <- !app_assoc.
    + constructor; auto.
    + cbn. intuition discriminate.
    + constructor; [reflexivity|constructor].
Qed.
Print Assumptions C86_headers.

(** ** A message with a blank line inside *)

Lemma runs_trans cd cu s t u : runs cd cu s t -> runs cd cu t u -> runs cd cu s u.
Proof. intros H K. induction K; [exact H|eapply runs_step; eauto]. Qed.

Lemma runs_one cd cu s t : step cd cu s t -> runs cd cu s t.
Proof. intros H. eapply runs_step; [apply runs_here|exact H]. Qed.

Section Stuck.
Variables cd cu : N.
Hypothesis Hcd : 0 < cd.

Lemma eat_char x rest todo done line kept u : x <> 10 ->
  runs cd cu (mk_sys (Writing (x :: rest) todo done) [] (Reading [] line kept) u)
             (mk_sys (Writing rest todo done) [] (Reading [] (line ++ [x]) kept) u).
Proof.
  intros Hx. eapply runs_step; [eapply runs_step; [apply runs_one; apply st_write; cbn; lia|]|].
  - apply st_fill with (a := [x]) (b := []); [discriminate|reflexivity].
  - apply st_take. exact Hx.
Qed.

Lemma eat_text xs rest todo done line kept u : ~ In 10 xs ->
  runs cd cu (mk_sys (Writing (xs ++ rest) todo done) [] (Reading [] line kept) u)
             (mk_sys (Writing rest todo done) [] (Reading [] (line ++ xs) kept) u).
Proof.
  revert line. induction xs as [|x xs IH]; intros line H; [rewrite app_nil_r; apply runs_here|].
  eapply runs_trans; [apply eat_char; intros ->; apply H; now left|].
  replace (line ++ x :: xs) with ((line ++ [x]) ++ xs) by now rewrite <- app_assoc.
  apply IH. intros I. apply H. now right.
Qed.

Lemma eat_newline rest todo done line kept u :
  runs cd cu (mk_sys (Writing (10 :: rest) todo done) [] (Reading [] line kept) u)
             (mk_sys (Writing rest todo done) [] (taken [] (line ++ [10]) kept) u).
Proof.
  eapply runs_step; [eapply runs_step; [apply runs_one; apply st_write; cbn; lia|]|].
  - apply st_fill with (a := [10]) (b := []); [discriminate|reflexivity].
  - apply st_taken.
Qed.

Lemma pour_up xs : forall p d buf r u, lenN u + lenN xs <= cu ->
  runs cd cu (mk_sys p d (Answering buf (xs ++ r)) u) (mk_sys p d (Answering buf r) (u ++ xs)).
Proof.
  induction xs as [|x xs IH]; intros p d buf r u H; [rewrite app_nil_r; apply runs_here|].
  unfold lenN in *. cbn [length] in H.
  eapply runs_trans; [apply runs_one; apply st_answer; unfold lenN; lia|].
  replace (u ++ x :: xs) with ((u ++ [x]) ++ xs) by now rewrite <- app_assoc.
  apply IH. rewrite app_length. cbn [length]. lia.
Qed.

Lemma pour_down xs : forall rest todo done d c u, lenN d + lenN xs <= cd ->
  runs cd cu (mk_sys (Writing (xs ++ rest) todo done) d c u) (mk_sys (Writing rest todo done) (d ++ xs) c u).
Proof.
  induction xs as [|x xs IH]; intros rest todo done d c u H; [rewrite app_nil_r; apply runs_here|].
  unfold lenN in *. cbn [length] in H.
  eapply runs_trans; [apply runs_one; apply st_write; unfold lenN; lia|].
  replace (d ++ x :: xs) with ((d ++ [x]) ++ xs) by now rewrite <- app_assoc.
  apply IH. rewrite app_length. cbn [length]. lia.
Qed.

(** A message [first ++ second], the child answering [first] while [second]
    does not fit into the pipe. *)
Lemma stuck_state todo done d u x rest y r : lenN d = cd -> lenN u = cu ->
  forall t, ~ step cd cu (mk_sys (Writing (x :: rest) todo done) d (Answering [] (y :: r)) u) t.
Proof. intros Hd Hu t St. inversion St; subst; unfold lenN in *; lia. Qed.
End Stuck.

(** The header value: so many octets, an empty line, and so many again. *)
Definition long_value (cd cu : N) : str := repeat 97 (N.to_nat cu) ++ [10; 10] ++ repeat 98 (N.to_nat cd + 1).
Definition long_message (cd cu : N) : hdict :=
  [(lit ":method", lit "GET"); (lit ":path", lit "/"); (lit "a", long_value cd cu)].

Lemma long_text cd cu : fork_text (long_message cd cu) =
  lit "GET / HTTP/1.1" ++ [13; 10] ++ (lit "a: " ++ repeat 97 (N.to_nat cu)) ++ [10] ++ [10] ++ repeat 98 (N.to_nat cd + 1) ++ [13; 10; 13; 10].
Proof.
  unfold fork_text, format_http1, long_message.
  change (din [(lit ":method", lit "GET"); (lit ":path", lit "/"); (lit "a", long_value cd cu)] (lit ":method")) with true.
  cbv iota. cbn [flat_map].
  change (mem_str (fst (lit ":method", lit "GET")) [lit ":method"; lit ":path"; lit ":version"]) with true.
  change (mem_str (fst (lit ":path", lit "/")) [lit ":method"; lit ":path"; lit ":version"]) with true.
  change (mem_str (fst (lit "a", long_value cd cu)) [lit ":method"; lit ":path"; lit ":version"]) with false.
  cbv iota. unfold h1_header. cbn [fst snd].
  rewrite split_on_free.
  2:{ unfold long_value. rewrite !in_app_iff. intros [I|[I|I]].
      - apply repeat_spec in I. discriminate.
      - cbn in I. intuition discriminate.
      - apply repeat_spec in I. discriminate. }
  cbn [flat_map]. rewrite !app_nil_r. unfold long_value.
  change (str_eqb (lit "a") (lit ":host")) with false. cbv iota.
  change (lit "a: ") with (lit "a" ++ lit ": "). rewrite <- !app_assoc. reflexivity.
Qed.

(** Whatever the capacities, some message can leave both processes waiting
    for each other: the child for room in one pipe, the parent in the other. *)
Theorem C86_blank_line_deadlock_refuted : forall cd cu, 0 < cd -> exists d s,
  is_dict d /\ runs cd cu (start [fork_text d]) s /\ (forall r, ~ finished s r) /\ (forall t, ~ step cd cu s t).
Proof.
  intros cd cu Hcd.
  set (first := lit "GET / HTTP/1.1" ++ [13; 10] ++ (lit "a: " ++ repeat 97 (N.to_nat cu)) ++ [10] ++ [10]).
  assert (Lf : (N.to_nat cu < length first)%nat).
  { unfold first. rewrite !app_length, repeat_length. cbn [length]. lia. }
  destruct (skipn (N.to_nat cu) first) as [|y r] eqn:Sk.
  { exfalso. assert (L := skipn_length (N.to_nat cu) first). rewrite Sk in L. cbn [length] in L. lia. }
  exists (long_message cd cu).
  exists (mk_sys (Writing (98 :: [13; 10; 13; 10]) [] []) (repeat 98 (N.to_nat cd)) (Answering [] (y :: r)) (firstn (N.to_nat cu) first)).
  split; [|split; [|split]].
  - unfold is_dict, long_message, keys. cbn [map fst]. repeat constructor; cbn; intuition discriminate.
  - unfold start. eapply runs_trans; [apply runs_one; apply st_call|]. rewrite long_text.
    change (lit "GET / HTTP/1.1" ++ [13; 10] ++ (lit "a: " ++ repeat 97 (N.to_nat cu)) ++ [10] ++ [10] ++ repeat 98 (N.to_nat cd + 1) ++ [13; 10; 13; 10])
      with (lit ("GET / HTTP/1.1" ++ String (Ascii.Ascii true false true true false false false false) "") ++ 10 :: (lit "a: " ++ repeat 97 (N.to_nat cu)) ++ 10 :: 10 :: repeat 98 (N.to_nat cd + 1) ++ [13; 10; 13; 10]).
    eapply runs_trans; [apply eat_text; [exact Hcd|]|].
    { vm_compute. intuition discriminate. }
    eapply runs_trans; [apply eat_newline; exact Hcd|].
    set (l1 := [] ++ lit _). change (taken [] (l1 ++ [10]) []) with (Reading [] [] (l1 ++ [10])).
    eapply runs_trans; [apply eat_text; [exact Hcd|]|].
    { rewrite in_app_iff. intros [I|I]; [vm_compute in I; intuition discriminate|apply repeat_spec in I; discriminate]. }
    eapply runs_trans; [apply eat_newline; exact Hcd|].
    set (l2 := [] ++ lit "a: " ++ repeat 97 (N.to_nat cu)).
    assert (T2 : forall k, taken [] (l2 ++ [10]) k = Reading [] [] (k ++ l2 ++ [10])).
    { intros k. unfold taken. rewrite blank_line_spec. reflexivity. }
    rewrite T2.
    eapply runs_trans; [apply eat_newline; exact Hcd|].
    change (taken [] ([] ++ [10]) ((l1 ++ [10]) ++ l2 ++ [10])) with (Answering [] (((l1 ++ [10]) ++ l2 ++ [10]) ++ [10])).
    assert (Ef : ((l1 ++ [10]) ++ l2 ++ [10]) ++ [10] = firstn (N.to_nat cu) first ++ y :: r).
    { rewrite <- Sk, firstn_skipn. unfold first, l1, l2. rewrite <- !app_assoc. reflexivity. }
    rewrite Ef.
    eapply runs_trans; [apply pour_up; [exact Hcd|]|].
    { unfold lenN. rewrite firstn_length. cbn [length]. lia. }
    rewrite repeat_app, <- app_assoc. cbn [app repeat].
    apply (pour_down cd cu Hcd (repeat 98 (N.to_nat cd)) (98 :: [13; 10; 13; 10]) [] [] []).
    unfold lenN. rewrite repeat_length. cbn [length]. lia.
  - intros rr F. discriminate.
  - apply (stuck_state cd cu Hcd); unfold lenN; rewrite ?repeat_length, ?firstn_length; lia.
Qed.
Print Assumptions C86_blank_line_deadlock_refuted.

(** A scheduler: the parent goes first; the child reads all that is there. *)
Definition next (cd cu : N) (s : system) : option system :=
  let '(mk_sys p d c u) := s in
  let child_step :=
    match c with
    | Reading [] line kept => match d with [] => None | _ => Some (mk_sys p [] (Reading d line kept) u) end
    | Reading (x :: buf) line kept =>
        Some (mk_sys p d (if x =? 10 then taken buf (line ++ [10]) kept else Reading buf (line ++ [x]) kept) u)
    | Answering buf [] => Some (mk_sys p d (Reading buf [] []) u)
    | Answering buf (x :: rest) => if lenN u <? cu then Some (mk_sys p d (Answering buf rest) (u ++ [x])) else None
    end in
  match p with
  | Idle (m :: todo) done => Some (mk_sys (Writing m todo done) d c u)
  | Idle [] _ => child_step
  | Writing [] todo done => Some (mk_sys (Listening [] [] todo done) d c u)
  | Writing (x :: rest) todo done => if lenN d <? cd then Some (mk_sys (Writing rest todo done) (d ++ [x]) c u) else child_step
  | Listening line out todo done =>
      match u with
      | [] => child_step
      | x :: u' => Some (mk_sys (if x =? 10 then heard (line ++ [10]) out todo done else Listening (line ++ [x]) out todo done) d c u')
      end
  end.

Lemma next_child cd cu p d c u t :
  match c with
  | Reading [] line kept => match d with [] => None | _ => Some (mk_sys p [] (Reading d line kept) u) end
  | Reading (x :: buf) line kept =>
      Some (mk_sys p d (if x =? 10 then taken buf (line ++ [10]) kept else Reading buf (line ++ [x]) kept) u)
  | Answering buf [] => Some (mk_sys p d (Reading buf [] []) u)
  | Answering buf (x :: rest) => if lenN u <? cu then Some (mk_sys p d (Answering buf rest) (u ++ [x])) else None
  end = Some t -> step cd cu (mk_sys p d c u) t.
Proof.
  destruct c as [buf line kept|buf rest].
  - destruct buf as [|x buf].
    + destruct d as [|y d]; [discriminate|]. intros E. assert (t = mk_sys p [] (Reading (y :: d) line kept) u) as -> by congruence.
      apply st_fill with (a := y :: d) (b := []); [discriminate|now rewrite app_nil_r].
    + destruct (N.eqb_spec x 10) as [->|N]; intros E.
      * assert (t = mk_sys p d (taken buf (line ++ [10]) kept) u) as -> by congruence. apply st_taken.
      * assert (t = mk_sys p d (Reading buf (line ++ [x]) kept) u) as -> by congruence. now apply st_take.
  - destruct rest as [|x rest].
    + intros E. assert (t = mk_sys p d (Reading buf [] []) u) as -> by congruence. apply st_answered.
    + destruct (N.ltb_spec (lenN u) cu) as [L|L]; [|discriminate]. intros E.
      assert (t = mk_sys p d (Answering buf rest) (u ++ [x])) as -> by congruence. now apply st_answer.
Qed.

Lemma next_step cd cu s t : next cd cu s = Some t -> step cd cu s t.
Proof.
  destruct s as [p d c u]. unfold next. destruct p as [todo done|rest todo done|line out todo done].
  - destruct todo as [|m todo]; [apply next_child|]. intros E.
    assert (t = mk_sys (Writing m todo done) d c u) as -> by congruence. apply st_call.
  - destruct rest as [|x rest].
    + intros E. assert (t = mk_sys (Listening [] [] todo done) d c u) as -> by congruence. apply st_written.
    + destruct (N.ltb_spec (lenN d) cd) as [L|L]; [|apply next_child]. intros E.
      assert (t = mk_sys (Writing rest todo done) (d ++ [x]) c u) as -> by congruence. now apply st_write.
  - destruct u as [|x u]; [apply next_child|]. destruct (N.eqb_spec x 10) as [->|N]; intros E.
    + assert (t = mk_sys (heard (line ++ [10]) out todo done) d c u) as -> by congruence. apply st_heard.
    + assert (t = mk_sys (Listening (line ++ [x]) out todo done) d c u) as -> by congruence. now apply st_hear.
Qed.

Fixpoint simulate (n : nat) (cd cu : N) (s : system) : system :=
  match n with
  | O => s
  | S k => match next cd cu s with Some t => simulate k cd cu t | None => s end
  end.

Lemma simulate_runs n cd cu : forall s, runs cd cu s (simulate n cd cu s).
Proof.
  induction n as [|n IH]; intros s; cbn [simulate]; [apply runs_here|].
  destruct (next cd cu s) as [t|] eqn:E; [|apply runs_here].
  eapply runs_trans; [apply runs_one; eapply next_step; eauto|apply IH].
Qed.

(** Two messages of one block, over pipes which hold three octets and two. *)
Definition plain1 : hdict := [(lit ":method", lit "GET"); (lit ":path", lit "/"); (lit "a", lit "1")].
Definition plain2 : hdict := [(lit ":status", lit "200"); (lit "b", [50; 0; 51])].

Example C86_example :
  exists b1 b2, one_block (fork_text plain1) b1 /\ one_block (fork_text plain2) b2 /\
    finished (simulate (N.to_nat 2100) 3 2 (start [fork_text plain1; fork_text plain2])) [b1; b2] /\
    b2 = lit "HTTP/1.1 200 ?" ++ [13; 10] ++ lit "b: 2" ++ [13; 10] ++ lit "b: 3" ++ [13; 10].
Proof.
  assert (E : finished (simulate (N.to_nat 2100) 3 2 (start [fork_text plain1; fork_text plain2]))
    [lit "GET / HTTP/1.1" ++ [13; 10] ++ lit "a: 1" ++ [13; 10];
     lit "HTTP/1.1 200 ?" ++ [13; 10] ++ lit "b: 2" ++ [13; 10] ++ lit "b: 3" ++ [13; 10]]) by (vm_compute; reflexivity).
  assert (H : forall d, d = plain1 \/ d = plain2 -> exists b, fork_text d = b ++ [13; 10] /\ one_block (fork_text d) b).
  { intros d Hd. apply C86_headers.
    - intros k v I. apply (proj1 (forallb_forall (fun kv : str * str => negb (existsb (N.eqb 10) (fst kv)) && negb (existsb (N.eqb 10) (snd kv))) d)) in I.
      + apply andb_prop in I as [I1 I2]. cbn [fst snd] in I1, I2. apply negb_true_iff in I1, I2.
        assert (G : forall l : str, existsb (N.eqb 10) l = false -> ~ In 10 l).
        { intros l El Il. assert (T : existsb (N.eqb 10) l = true) by (apply existsb_exists; exists 10; auto). congruence. }
        split; now apply G.
      + destruct Hd as [->| ->]; vm_compute; reflexivity.
    - intros v E2. destruct Hd as [->| ->]; vm_compute in E2; discriminate. }
  destruct (H plain1) as (b1 & T1 & O1); auto. destruct (H plain2) as (b2 & T2 & O2); auto.
  exists b1, b2. split; [exact O1|]. split; [exact O2|].
  assert (B : [b1; b2] = [lit "GET / HTTP/1.1" ++ [13; 10] ++ lit "a: 1" ++ [13; 10];
     lit "HTTP/1.1 200 ?" ++ [13; 10] ++ lit "b: 2" ++ [13; 10] ++ lit "b: 3" ++ [13; 10]]).
  { symmetry. eapply C86_session with (cd := 3) (cu := 2); [reflexivity|reflexivity| |apply simulate_runs|exact E].
    constructor; [exact O1|constructor; [exact O2|constructor]]. }
  assert (B1 := f_equal (fun l => nth 0 l []) B). assert (B2 := f_equal (fun l => nth 1 l []) B). cbv beta in B1, B2.
  cbn [nth] in B1, B2. rewrite B1, B2. split; [exact E|reflexivity].
Qed.

(** A value with an empty line, and the call after it. *)
Definition split_msg : hdict := [(lit ":method", lit "GET"); (lit ":path", lit "/"); (lit "a", [120; 10; 10; 121])].

Theorem C86_blank_line_lockstep_refuted : exists d1 d2 s r1 r2,
  is_dict d1 /\ is_dict d2 /\ runs 65536 65536 (start [fork_text d1; fork_text d2]) s /\ finished s [r1; r2] /\
  r1 = lit "GET / HTTP/1.1" ++ [13; 10] ++ lit "a: x" ++ [10] /\ r2 = lit "y" ++ [13; 10] /\
  (exists b2, one_block (fork_text d2) b2 /\ r2 <> b2).
Proof.
  exists split_msg, plain2, (simulate (N.to_nat 400) 65536 65536 (start [fork_text split_msg; fork_text plain2])).
  exists (lit "GET / HTTP/1.1" ++ [13; 10] ++ lit "a: x" ++ [10]), (lit "y" ++ [13; 10]).
  split; [|split; [|split; [|split; [|split; [|split]]]]].
  - unfold is_dict, split_msg, keys. cbn [map fst]. repeat constructor; cbn; intuition discriminate.
  - unfold is_dict, plain2, keys. cbn [map fst]. repeat constructor; cbn; intuition discriminate.
  - apply simulate_runs.
  - vm_compute. reflexivity.
  - reflexivity.
  - reflexivity.
  - destruct C86_example as (b1 & b2 & _ & O2 & _ & E). exists b2. split; [exact O2|]. rewrite E. vm_compute. discriminate.
Qed.
Print Assumptions C86_blank_line_lockstep_refuted.
