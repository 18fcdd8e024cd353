(** * Properties C24 and C28: delta2 sessions. *)
From Coq Require Import String List NArith ZArith Bool Arith Lia Permutation.
From Verif Require Import PyBase PyStr Lib_Model Lib_Spec Lib_Proofs Small_Model D2Huff_Model D2Huff_Dict D2Store_Model D2Wire_Model D2Wire_Proofs Prop_D2Huff Prop_D2Wire
  D2Code_Model D2Code_Exec D2Code_Round D2Code_Says.
Import ListNotations.
Open Scope N_scope.
Open Scope py_scope.

(** ** Sessions *)

(** A message that may be sent: names and values are octet strings, the group
    fits its octet, and the iteration orders list every element once. *)
Record message := mk_message { msg_headers : hdict; msg_group : N; msg_sender : order; msg_receiver : zset -> list Z }.
Definition message_ok (m : message) : Prop :=
  (forall k v, In (k, v) (msg_headers m) -> is_bytes k /\ is_bytes v) /\ msg_group m < 256 /\
  order_ok (msg_sender m) /\ forall z, Permutation (msg_receiver m z) z.

(** Both ends after some messages, each of which fitted one frame. *)
Inductive session (h : huffman) (o : options) : code -> code -> Prop :=
| session_new c d : code_new o = Ok c -> code_new o = Ok d -> session h o c d
| session_step c d m c' d' blob out : session h o c d -> message_ok m ->
    compress_group h (msg_sender m) c (msg_headers m) (msg_group m) = Ok (c', blob) -> lenN blob <= 65536 ->
    real_ops_execute h (msg_receiver m) d blob = Ok (d', out) -> session h o c' d'.

(** What is put together says the same: the same pieces for every name, except
    that the pieces of a cookie are cut at NUL characters as well. *)
Definition reconstructed (sent out : hdict) : Prop :=
  is_dict out /\
  (forall k y, k <> lit "cookie" -> (carries out k y <-> carries sent k y)) /\
  (forall y, carries out (lit "cookie") y <-> exists p x, carries sent (lit "cookie") p /\ piece_of 0 p x /\ trimmed x y).

(** No NUL in a cookie value. *)
Definition plain_cookie (d : hdict) : Prop := forall v, In (lit "cookie", v) d -> ~ In 0 v.

Lemma reconstructed_plain sent out : reconstructed sent out -> plain_cookie sent -> forall k y, carries out k y <-> carries sent k y.
Proof.
  intros (_ & H1 & H2) Hp k y. destruct (str_eqb_spec k (lit "cookie")) as [->|N]; [|now apply H1]. rewrite H2.
  assert (F : forall p, carries sent (lit "cookie") p -> ~ In 0 p /\ strip is_blank p = p).
  { intros p H. apply carries_split in H as (v & Hv & Hy). unfold split_value in Hy. rewrite str_eqb_refl in Hy.
    apply in_map_iff in Hy as (q & <- & Hq). split; [|apply strip_idem]. intros C. apply strip_in in C. apply (Hp v Hv). eapply split_on_in; eauto. }
  split.
  - intros (p & x & Hc & Hx & Ht). destruct (F p Hc) as [F1 F2]. apply piece_of_split in Hx. rewrite split_on_free in Hx by exact F1. destruct Hx as [<-|[]].
    apply trimmed_strip in Ht. now rewrite Ht, F2.
  - intros Hc. destruct (F y Hc) as [F1 F2]. exists y, y. split; [exact Hc|]. split; [apply piece_of_split; rewrite split_on_free by exact F1; now left|].
    apply trimmed_strip. now symmetry.
Qed.

(** ** One message *)

Lemma message_round h c m : coder h -> kinv c -> message_ok m ->
  exists c' blob, compress_group h (msg_sender m) c (msg_headers m) (msg_group m) = Ok (c', blob) /\ is_bytes blob /\ kinv c' /\
  (lenN blob <= 65536 -> exists out, real_ops_execute h (msg_receiver m) c blob = Ok (c', out) /\ reconstructed (msg_headers m) out).
Proof.
  intros Hh K (Hb & Hg & Ho & Hr). destruct (make_ok (msg_sender m) c (msg_headers m) (msg_group m) K Ho Hb) as (c' & is & E & K' & Ec & V & _ & _ & X).
  unfold compress_group. rewrite E. cbn [bind]. rewrite Ec. destruct (C21_serialised h (c_width (k_cfg c)) is (msg_group m) Hh V Hg) as (blob & Ew & B & R).
  rewrite Ew. cbn [bind]. exists c', blob. split; [reflexivity|]. split; [exact B|]. split; [exact K'|]. intros Hl.
  unfold real_ops_execute. rewrite (R Hl). cbn [bind]. rewrite execute_find. destruct (X (msg_receiver m) Hr) as (L & P & Ex).
  assert (Ek : mk_code (k_cfg c) (k_store c) (k_groups c) = c) by (destruct c; reflexivity). rewrite Ek, Ex.
  eexists. split; [reflexivity|]. now apply says_ok.
Qed.

Lemma session_inv h o c d : coder h -> session h o c d -> d = c /\ kinv c.
Proof.
  intros Hh H. induction H as [c d E1 E2|c d m c' d' blob out H [-> K] Hm E1 Hl E2].
  - split; [congruence|]. destruct (kinv_new o) as (k & E & _ & K). assert (k = c) by congruence. now subst.
  - destruct (message_round h c m Hh K Hm) as (c2 & blob2 & F1 & _ & K' & R). assert (c2 = c' /\ blob2 = blob) as [-> ->] by (split; congruence).
    destruct (R Hl) as (out2 & F2 & _). split; [congruence|exact K'].
Qed.

(** ** C24 *)

(** At any moment of a session with any options the two ends are in the same
    state, and any further message is encoded without an exception; if it fits
    one frame it is decoded to what was sent, and both ends are again in the
    same state. *)
Theorem C24_session : forall h o c d, coder h -> session h o c d -> d = c /\
  forall m, message_ok m ->
  exists c' blob, compress_group h (msg_sender m) c (msg_headers m) (msg_group m) = Ok (c', blob) /\ is_bytes blob /\
  (lenN blob <= 65536 -> exists out, real_ops_execute h (msg_receiver m) d blob = Ok (c', out) /\ reconstructed (msg_headers m) out).
Proof.
  intros h o c d Hh H. destruct (session_inv h o c d Hh H) as [-> K]. split; [reflexivity|]. intros m Hm.
  destruct (message_round h c m Hh K Hm) as (c' & blob & E & B & _ & R). eauto.
Qed.
Print Assumptions C24_session.

(** The same pairs of a name and a piece, when no cookie contains a NUL. *)
Theorem C24_same_pairs : forall h o c d m c' blob d' out, coder h -> session h o c d -> message_ok m ->
  compress_group h (msg_sender m) c (msg_headers m) (msg_group m) = Ok (c', blob) -> lenN blob <= 65536 ->
  real_ops_execute h (msg_receiver m) d blob = Ok (d', out) -> plain_cookie (msg_headers m) ->
  d' = c' /\ is_dict out /\ forall k y, carries out k y <-> carries (msg_headers m) k y.
Proof.
  intros h o c d m c' blob d' out Hh H Hm E Hl Ed Hp. destruct (C24_session h o c d Hh H) as [-> S].
  destruct (S m Hm) as (c2 & blob2 & E2 & _ & R). assert (c2 = c' /\ blob2 = blob) as [-> ->] by (split; congruence).
  destruct (R Hl) as (out2 & Ed2 & Ho). assert (d' = c' /\ out2 = out) as [-> ->] by (split; congruence).
  split; [reflexivity|]. split; [exact (proj1 Ho)|]. now apply reconstructed_plain.
Qed.
Print Assumptions C24_same_pairs.

(** The orders of CPython do not matter; here everything is iterated backwards. *)
Definition backwards : order := mk_order (@rev _) (@rev _) (rev all_opcodes) (@rev _).
Lemma backwards_ok : order_ok backwards.
Proof. split; intros; cbn; symmetry; apply Permutation_rev. Qed.

Fixpoint send_all (h : huffman) (c d : code) (ms : list message) : res (list (nat * hdict) * code * code) :=
  match ms with
  | [] => Ok ([], c, d)
  | m :: r =>
      let* (c, blob) := compress_group h (msg_sender m) c (msg_headers m) (msg_group m) in
      let* (d, out) := real_ops_execute h (msg_receiver m) d blob in
      let* (lc, d) := send_all h c d r in
      let (l, c) := lc : list (nat * hdict) * code in
      Ok ((length blob, out) :: l, c, d)
  end.
Definition table_of (c : code) : list (str * str * Z) := map (fun e => (kv_key (fst e), kv_val (fst e), snd e)) (l_ring (s_lru (k_store c))).

(** Room for three entries; four messages in two groups, with evictions, a
    split cookie, and an empty value. *)
Definition tiny : options := mk_options (Some 4096%Z) (Some 3%Z) true false true true false false true.
Definition some_messages : list message :=
  map (fun '(d, g) => mk_message (map (fun p => (lit (fst p), lit (snd p))) d) g backwards (fun z => z))
  [([("a", "1"); ("cookie", "x=1; y=2"); (":method", "get")], 1); ([("a", "1"); ("b", ""); (":method", "get")], 1);
   ([("a", "2"); ("c", "3"); ("d", "4"); ("e", "5")], 200); ([("a", "1"); ("c", "3"); ("cookie", "y=2")], 1)]%string.
Example C24_nontrivial :
  match new_huffman int_dict_order (with_symbols small_counts), code_new tiny with
  | Ok h, Ok c => match send_all h c c some_messages with
     | Ok (outs, c', d') =>
       outs = map (fun '(n, d) => (n, map (fun p => (lit (fst p), lit (snd p))) d))
         [(27%nat, [("a", "1"); ("cookie", "y=2; x=1"); (":method", "get")]); (20%nat, [("b", ""); ("a", "1"); (":method", "get")]);
          (26%nat, [("e", "5"); ("d", "4"); ("c", "3"); ("a", "2")]); (20%nat, [("cookie", "y=2"); ("a", "1"); ("c", "3")])]%string /\
       table_of c' = [(lit "cookie", lit "y=2", 76%Z); (lit "a", lit "1", 77%Z); (lit "c", lit "3", 78%Z)] /\ table_of d' = table_of c' /\
       k_groups c' = [(1, [76; 77; 78]%Z)] /\ k_groups d' = k_groups c'
     | Err _ => False
     end
  | _, _ => False
  end.
Proof. vm_compute. repeat split. Qed.

(** ** C28: the processor under the harness's check *)

(** One processor object compresses and decompresses; the harness calls the
    two in turn.  [norm] is the regular expression that shortens host names. *)
Record call := mk_call { call_headers : hdict; call_host : str; call_sender : order; call_receiver : zset -> list Z }.
Definition call_ok (m : call) : Prop :=
  (forall k v, In (k, v) (call_headers m) -> is_bytes k /\ is_bytes v) /\ order_ok (call_sender m) /\ forall z, Permutation (call_receiver m z) z.

Inductive harness (norm : str -> str) (h : huffman) (o : options) : processor -> Prop :=
| harness_new p : proc_new o = Ok p -> harness norm h o p
| harness_step p m p1 blob p2 out : harness norm h o p -> call_ok m ->
    proc_compress norm h (call_sender m) p (call_headers m) (call_host m) = Ok (p1, blob) -> lenN blob <= 65536 ->
    proc_decompress h (call_receiver m) p1 blob = Ok (p2, out) -> harness norm h o p2.

Record pinv (p : processor) : Prop := {
  pi_kinv : kinv (p_comp p);
  pi_same : p_decomp p = p_comp p;
  pi_hosts : forall n g, dget (p_hosts p) n = Some g -> g < 256;
  pi_ids : is_ids (p_ids p) = [] /\ is_max (p_ids p) = 255 }.

Lemma call_round norm h p m : coder h -> pinv p -> call_ok m ->
  exists p1 blob, proc_compress norm h (call_sender m) p (call_headers m) (call_host m) = Ok (p1, blob) /\ is_bytes blob /\
  (lenN blob <= 65536 -> exists p2 out, proc_decompress h (call_receiver m) p1 blob = Ok (p2, out) /\ pinv p2 /\ reconstructed (call_headers m) out).
Proof.
  intros Hh [K S Hg [I1 I2]] (Hb & Ho & Hr). unfold proc_compress. set (n := norm (call_host m)).
  assert (G : exists g hosts ids, (match dget (p_hosts p) n with
     | Some g => (g, p_hosts p, p_ids p)
     | None => let (g, ids) := ids_get (fun _ => 0%nat) (p_ids p) in (g, dset (p_hosts p) n g, ids)
     end) = (g, hosts, ids) /\ g < 256 /\ (forall n g, dget hosts n = Some g -> g < 256) /\ is_ids ids = [] /\ is_max ids = 255).
  { destruct (dget (p_hosts p) n) as [g|] eqn:En.
    - exists g, (p_hosts p), (p_ids p). repeat split; eauto.
    - unfold ids_get. rewrite I1, I2. set (g := if negb (255 =? 0) && (255 <=? is_next (p_ids p) + 1) then 0 else is_next (p_ids p) + 1).
      assert (Hlt : g < 256). { unfold g. change (negb (255 =? 0)) with true. cbn [andb]. destruct (N.leb_spec 255 (is_next (p_ids p) + 1)); lia. }
      eexists _, _, _. split; [reflexivity|]. split; [exact Hlt|]. split; [|split; reflexivity].
      intros n' g' E. rewrite dget_dset in E. destruct (str_eqb n' n); [injection E as <-; exact Hlt|eauto]. }
  destruct G as (g & hosts & ids & -> & Hlt & Hh' & I1' & I2').
  destruct (message_round h (p_comp p) (mk_message (call_headers m) g (call_sender m) (call_receiver m)) Hh K) as (c' & blob & E & B & K' & R).
  { split; [exact Hb|]. split; [exact Hlt|]. split; assumption. }
  cbn [msg_headers msg_group msg_sender msg_receiver] in *. rewrite E. cbn [bind]. eexists _, blob. split; [reflexivity|]. split; [exact B|]. intros Hl.
  destruct (R Hl) as (out & Ed & Ho'). unfold proc_decompress. cbn [p_decomp]. rewrite S, Ed. cbn [bind]. eexists _, out. split; [reflexivity|]. split; [|exact Ho'].
  split; cbn; auto.
Qed.

Lemma proc_new_ok o p : proc_new o = Ok p -> exists k, kinv k /\ p = mk_proc k k [] (ids_new 255).
Proof.
  destruct (kinv_new o) as (k & Ek & _ & K). unfold proc_new. generalize dependent (code_new o). intros r ->. cbn [bind]. intros E. exists k. split; [exact K|congruence].
Qed.

Lemma harness_inv norm h o p : coder h -> harness norm h o p -> pinv p.
Proof.
  intros Hh H. induction H as [p E|p m p1 blob p2 out H IH Hm E1 Hl E2].
  - destruct (proc_new_ok o p E) as (k & K & ->). split; cbn [p_comp p_decomp p_hosts p_ids]; [exact K|reflexivity|discriminate|split; reflexivity].
  - destruct (call_round norm h p m Hh IH Hm) as (p1' & blob' & F1 & _ & R). assert (p1' = p1 /\ blob' = blob) as [-> ->] by (split; congruence).
    destruct (R Hl) as (p2' & out' & F2 & I & _). assert (p2' = p2) as -> by congruence. exact I.
Qed.

(** Whatever was sent before: compress does not raise, and if the message fits
    one frame decompress does not raise and the harness finds no difference. *)
Theorem C28_passes_harness_check : forall norm h o p m ord a b, coder h -> harness norm h o p -> call_ok m -> plain_cookie (call_headers m) -> is_order ord ->
  exists p1 blob, proc_compress norm h (call_sender m) p (call_headers m) (call_host m) = Ok (p1, blob) /\
  (lenN blob <= 65536 -> exists p2 out, proc_decompress h (call_receiver m) p1 blob = Ok (p2, out) /\ compare_headers ord (call_headers m) a out b = []).
Proof.
  intros norm h o p m ord a b Hh H Hm Hp Ho. destruct (call_round norm h p m Hh (harness_inv _ _ _ _ Hh H) Hm) as (p1 & blob & E1 & _ & R).
  exists p1, blob. split; [exact E1|]. intros Hl. destruct (R Hl) as (p2 & out & E2 & _ & Hr). exists p2, out. split; [exact E2|].
  apply compare_verdict; [exact Ho|]. intros k y _. symmetry. now apply reconstructed_plain.
Qed.
Print Assumptions C28_passes_harness_check.

(** With a NUL the check reports a difference exactly when cutting the pieces
    of the cookie at NUL characters changes the set of pieces. *)
Theorem C28_with_nul : forall norm h o p m ord a b p1 blob p2 out, coder h -> harness norm h o p -> call_ok m -> is_order ord ->
  proc_compress norm h (call_sender m) p (call_headers m) (call_host m) = Ok (p1, blob) -> lenN blob <= 65536 ->
  proc_decompress h (call_receiver m) p1 blob = Ok (p2, out) ->
  (compare_headers ord (call_headers m) a out b = [] <->
   forall y, carries (call_headers m) (lit "cookie") y <-> exists q x, carries (call_headers m) (lit "cookie") q /\ piece_of 0 q x /\ trimmed x y).
Proof.
  intros norm h o p m ord a b p1 blob p2 out Hh H Hm Ho E1 Hl E2.
  destruct (call_round norm h p m Hh (harness_inv _ _ _ _ Hh H) Hm) as (p1' & blob' & F1 & _ & R). assert (p1' = p1 /\ blob' = blob) as [-> ->] by (split; congruence).
  destruct (R Hl) as (p2' & out' & F2 & _ & (_ & R1 & R2)). assert (p2' = p2 /\ out' = out) as [-> ->] by (split; congruence).
  rewrite (compare_verdict ord) by exact Ho. unfold same_content. split.
  - intros S y. rewrite <- R2. apply S. clear. unfold ignored_name. vm_compute. intuition discriminate.
  - intros S k y _. destruct (str_eqb_spec k (lit "cookie")) as [->|N]; [now rewrite R2|now rewrite R1].
Qed.
Print Assumptions C28_with_nul.

(** The first message to a new processor. *)
Definition nul_cookie : call := mk_call [(lit "cookie", [97; 0; 98])] (lit "www.example.com") backwards (@rev _).
Definition shop_cookie : call := mk_call [(lit "cookie", lit "a;b ; a"); (lit "accept", [97; 0; 98]); (lit "connection", lit "close")] (lit "www.example.com") backwards (@rev _).
Definition check (m : call) : res (hdict * bool) :=
  let* h := new_huffman int_dict_order (with_symbols small_counts) in
  let* p := proc_new default_options in
  let* (p, blob) := proc_compress (fun s => s) h (call_sender m) p (call_headers m) (call_host m) in
  let* (p, out) := proc_decompress h (call_receiver m) p blob in
  Ok (out, match compare_headers (fun l => l) (call_headers m) (lit "orig") out (lit "delta2") with [] => true | _ => false end).
Theorem C28_nul_in_cookie_refuted : exists m, call_ok m /\ check m = Ok ([(lit "cookie", lit "a; b")], false).
Proof.
  exists nul_cookie. split; [|vm_compute; reflexivity]. split; [|split; [exact backwards_ok|intros; symmetry; apply Permutation_rev]].
  intros k v [E|[]]. injection E as <- <-. split; repeat constructor.
Qed.
Print Assumptions C28_nul_in_cookie_refuted.
Example C28_nontrivial : check shop_cookie = Ok ([(lit "connection", lit "close"); (lit "accept", [98; 0; 97]); (lit "cookie", lit "b; a")], true).
Proof. vm_compute. reflexivity. Qed.
