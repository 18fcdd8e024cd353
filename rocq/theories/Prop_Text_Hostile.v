(** * Property C104: http1's and simple's decoders and texts made by anybody. *)
From Coq Require Import String List NArith ZArith Bool Lia Arith Permutation.
From Verif Require Import PyBase PyStr PyMerge Lib_Model H1_Model Simple_Model Simple_Spec Text_Hostile.
Import ListNotations.
Open Scope N_scope.
Open Scope py_scope.

(** Every text is read or refused with one of two exceptions: ValueError if a line
    before the first empty one has no colon after its first character, else
    IndexError if the first line has fewer than three parts. *)
Theorem C104_http1_outcomes : forall q s, match http1_decompress q s with
  | Ok _ => Forall has_name (field_lines s) /\ three_parts (first_line s)
  | Err e => (e = ValueError /\ ~ Forall has_name (field_lines s)) \/
             (e = IndexError /\ Forall has_name (field_lines s) /\ ~ three_parts (first_line s))
  end.
Proof.
  intros q s. unfold http1_decompress, parse_http1, parse_http1_in, field_lines, first_line. pose proof (split_on_nonempty 10 (strip is_space s)) as N. destruct (split_on 10 (strip is_space s)) as [|first lines]; [contradiction|]. cbn [tl hd].
  destruct (parse_lines_outcome lines []) as (A & B & C). destruct (parse_lines is_space lower lines []) as [out|e]; cbn [bind].
  - specialize (C out eq_refl). pose proof (split_ws_parts first) as W. destruct (split_ws is_space 2 first) as [|t0 [|t1 [|t2 [|t3 l]]]]; try (right; auto). destruct W as [W _]. destruct q; [|auto].
    destruct (dget _ _); auto.
  - left. split; [now apply B|]. intros F. destruct (A F) as [d E]. discriminate.
Qed.
Print Assumptions C104_http1_outcomes.

(** What is read is no larger than the text, apart from 27 characters for the names
    of the parts of the first line. *)
Theorem C104_http1_size : forall q s d, http1_decompress q s = Ok d -> (dsize d <= length s + 27)%nat.
Proof. intros q s d. apply parse_size. discriminate. Qed.
Print Assumptions C104_http1_size.

(** simple refuses with one of three exceptions, in whatever state, with whatever
    order of iteration. *)
Theorem C104_simple_outcomes : forall o ord last s e, (forall x, exists t, o_dec o x = Ok t) ->
  s_decompress o ord last s = Err e -> e = ValueError \/ e = IndexError \/ e = KeyError.
Proof.
  intros o ord last s e Hd. unfold s_decompress. destruct (Hd s) as [t ->]. cbn [bind].
  destruct (parse_http1 t (o_request o) (lit "h")) as [headers|x] eqn:P; cbn [bind].
  - destruct (d_loop o (ord headers) []) as [out|x] eqn:L; cbn [bind].
    + destruct (dget headers (lit "ref")) as [r|]; [|discriminate]. destruct last as [[|kv l]|]; try discriminate. destruct (d_refs (kv :: l) (split_on 44 r) out) as [o2|x] eqn:R; cbn [bind]; [discriminate|]. intros [= <-]. apply d_refs_errors in R as [-> | ->]; auto.
    + intros [= <-]. apply d_loop_errors in L as [-> | ->]; auto.
  - intros [= <-]. unfold parse_http1, parse_http1_in in P. destruct (split_on 10 (strip is_space t)) as [|first lines]; [injection P as <-; auto|].
    destruct (parse_lines_outcome lines []) as (_ & B & _). destruct (parse_lines is_space lower lines []) as [out|y]; cbn [bind] in P; [|left; apply B; congruence].
    destruct (split_ws is_space 2 first) as [|t0 [|t1 [|t2 [|t3 l]]]]; try (injection P as <-; auto). destruct (o_request o); [destruct (dget _ _)|]; discriminate.
Qed.
Print Assumptions C104_simple_outcomes.

(** A decoder that goes on after refusing keeps what it had. *)
Fixpoint received (o : s_opts) (ord : nat -> hdict -> hdict) (i : nat) (last : option hdict) (ss : list str) : option hdict :=
  match ss with
  | [] => last
  | s :: r => received o ord (S i) (match s_decompress o (ord i) last s with Ok (l, _) => l | Err _ => last end) r
  end.
Definition kept (last : option hdict) : nat := match last with Some d => dsize d | None => O end.

Lemma dsize_perm a b : Permutation a b -> dsize a = dsize b.
Proof. intros H. induction H; cbn [dsize fold_right]; unfold dsize in *; lia. Qed.
Lemma step_kept q max ord last s last' out : (forall d, Permutation (ord d) d) -> s_decompress (opts_plain q max) ord last s = Ok (last', out) ->
  (kept last' <= kept last + 14 * (length s + 27))%nat.
Proof.
  intros Ho. unfold s_decompress. cbn [opts_plain o_dec o_request bind]. destruct (parse_http1 s q (lit "h")) as [headers|] eqn:P; [|discriminate]. cbn [bind]. apply parse_size in P; [|discriminate].
  destruct (d_loop (opts_plain q max) (ord headers) []) as [o1|] eqn:L; [|discriminate]. cbn [bind]. pose proof (d_loop_dict _ _ _ _ L ltac:(constructor)) as D. apply (d_loop_size (opts_plain q max) (ord headers) eq_refl) in L. rewrite (dsize_perm _ _ (Ho headers)) in L. cbn [dsize fold_right] in L.
  assert (B : (dsize o1 <= kept last + 14 * (length s + 27))%nat) by lia.
  destruct (dget headers (lit "ref")) as [r|]; [|intros [= <- _]; exact B]. destruct last as [[|kv l]|]; try (intros [= <- _]; exact B).
  destruct (d_refs (kv :: l) (split_on 44 r) o1) as [o2|] eqn:R; [|discriminate]. cbn [bind]. intros [= <- _]. destruct (d_refs_in _ _ _ _ R D) as [D2 I]. pose proof (dsize_incl _ _ D2 I) as S2. rewrite dsize_app in S2. cbn [kept]. lia.
Qed.

(** What it keeps is limited by what it has received. *)
Theorem C104_simple_memory : forall q max ord ss, (forall i d, Permutation (ord i d) d) ->
  (kept (received (opts_plain q max) ord 0 None ss) <= fold_right (fun s n => 14 * (length s + 27) + n) 0 ss)%nat.
Proof.
  intros q max ord ss Ho. enough (G : forall i last, (kept (received (opts_plain q max) ord i last ss) <= kept last + fold_right (fun s n => 14 * (length s + 27) + n) 0 ss)%nat) by apply (G 0%nat None).
  induction ss as [|s ss IH]; intros i last; cbn [received fold_right]; [lia|]. etransitivity; [apply IH|]. destruct (s_decompress (opts_plain q max) (ord i) last s) as [[l d]|] eqn:E; [|lia].
  apply step_kept in E; [lia|apply Ho].
Qed.
Print Assumptions C104_simple_memory.

(** Missing ends are not noticed: a beginning of a message can be read as another one. *)
Theorem C104_cut_refuted : exists d k d', http1_decompress false (http1_compress d) = Ok d /\
  (k < length (http1_compress d))%nat /\ http1_decompress false (firstn k (http1_compress d)) = Ok d' /\ dget d' (lit "content-length") <> dget d (lit "content-length").
Proof.
  exists [(lit "content-length", lit "120"); (lit ":version", lit "HTTP/1.1"); (lit ":status", lit "200"); (lit ":status-text", lit "OK")], 35%nat. eexists.
  split; [vm_compute; reflexivity|]. split; [vm_compute; repeat constructor|]. split; [vm_compute; reflexivity|]. vm_compute. discriminate.
Qed.
Print Assumptions C104_cut_refuted.

(** Each outcome; what a reference says when there is nothing to refer to. *)
Example C104_examples :
  http1_decompress true (lit "GET / HTTP/1.1" ++ [10] ++ lit "a:b" ++ [10; 10] ++ lit "ignored") = Ok [(lit "a", lit "b"); (lit ":method", lit "GET"); (lit ":path", lit "/"); (lit ":version", lit "HTTP/1.1")] /\
  http1_decompress true (lit "GET /" ++ [10] ++ lit ":a") = Err ValueError /\ http1_decompress true (lit "GET /") = Err IndexError /\
  s_decompress (opts_plain true 9) (fun d => d) None (lit "GET / H/2" ++ [10] ++ lit "zz:1") = Err KeyError /\
  s_decompress (opts_plain true 9) (fun d => d) (Some [(lit "a", [])]) (lit "GET / H/2" ++ [10] ++ lit "ref:,") = Err IndexError /\
  received (opts_plain true 9) (fun _ d => d) 0 None [lit "GET / H/2" ++ [10] ++ lit "ref:!a"; lit "x"; lit "GET / H/2" ++ [10] ++ lit "!a:1" ++ [10] ++ lit "p:2"] =
    Some [(lit "a", lit "1"); (lit "pragma", lit "2"); (lit ":method", lit "GET"); (lit ":path", lit "/"); (lit ":version", lit "H/2")].
Proof. vm_compute. repeat split; reflexivity. Qed.
