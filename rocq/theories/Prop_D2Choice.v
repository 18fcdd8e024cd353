(** * Property C97: which instructions delta2's compressor sends. *)
From Coq Require Import String List NArith ZArith Bool Arith Lia Permutation.
From Verif Require Import PyBase PyStr BB_Model Lib_Model Lib_Spec Lib_Proofs Small_Model D2Huff_Model D2Huff_Dict D2Store_Model D2Wire_Model Prop_D2Huff Prop_D2Wire
  D2Code_Model Prop_D2Ranges D2Code_Store D2Code_Exec D2Code_Make D2Code_Round D2Code_Says D2Code_Choice Prop_D2Code Prop_D2Repeat.
Import ListNotations.
Open Scope N_scope.
Open Scope py_scope.

(** ** C97 *)

(** After any session, for every message that fits a frame: the instructions in
    the frame, with their numbers read as entries of the table, are exactly those
    which the table and the header group call for. *)
Theorem C97_instructions : forall h o c d m c' blob, coder h -> session h o c d -> message_ok m ->
  compress_group h (msg_sender m) c (msg_headers m) (msg_group m) = Ok (c', blob) -> lenN blob <= 65536 ->
  exists sent ops, from_wire (c_width (config o)) h blob = Ok (msg_group m, sent) /\ Forall2 (means_op o c) sent ops /\
    chosen o c (msg_group m) (msg_headers m) ops.
Proof.
  intros h o c d m c' blob Hh S Hm E Hl. destruct (session_cfg h o c d Hh S) as [Ec K].
  destruct (sending h c m Hh K Hm) as (c2 & is & b2 & E1 & E2 & _ & _ & _ & R). assert (b2 = blob) as -> by congruence.
  pose proof Hm as (Hb & _ & Ho & _). destruct (make_chosen o _ c _ _ c2 is K Ec Ho Hb E1) as (ops & M & C).
  exists (flat_map snd is), ops. rewrite <- Ec. auto.
Qed.
Print Assumptions C97_instructions.

(** So a pair which is in the table is never sent as text, and the text of a
    name is sent only when no entry has that name. *)
Theorem C97_text_only_if_needed : forall h o c d m c' blob sent, coder h -> session h o c d -> message_ok m ->
  compress_group h (msg_sender m) c (msg_headers m) (msg_group m) = Ok (c', blob) -> lenN blob <= 65536 ->
  from_wire (c_width (config o)) h blob = Ok (msg_group m, sent) ->
  (forall e w v, In (OClone e w v) sent -> exists n, carries (msg_headers m) n v /\ forall j, ~ reads c j (n, v)) /\
  (forall e n v, In (OKvsto e n v) sent -> carries (msg_headers m) n v /\ forall j w, ~ reads c j (n, w)).
Proof.
  intros h o c d m c' blob sent Hh S Hm E Hl F. destruct (C97_instructions h o c d m c' blob Hh S Hm E Hl) as (s2 & ops & F2 & M & [_ _ _ V N]).
  assert (s2 = sent) by congruence. subst s2. split.
  - intros e w v Hi. assert (X : exists i, In (OClone e i v) ops).
    { clear - M Hi. induction M as [|x y l l' R M IH]; [contradiction|]. destruct Hi as [->|Hi]; [inversion R; subst; eexists; now left|]. destruct (IH Hi) as (i & Q). exists i. now right. }
    destruct X as (i & X). apply V in X as (n & (W & _) & A & _). exists n. split; [exact W|exact A].
  - intros e n v Hi. assert (X : In (OKvsto e n v) ops).
    { clear - M Hi. induction M as [|x y l l' R M IH]; [contradiction|]. destruct Hi as [->|Hi]; [inversion R; subst; now left|right; auto]. }
    apply N in X as (_ & (W & _) & A). split; [exact W|exact A].
Qed.
Print Assumptions C97_text_only_if_needed.

(** Three messages to one group: literals and one static entry; then the five
    stored entries join the group as one range; then they leave it again, in a
    range with the static entry for the path "/" that joins it. *)
Definition frames_of (o : options) (ms : list message) : res (list (list op)) :=
  let* h := new_huffman int_dict_order (with_symbols small_counts) in
  let* c := code_new o in
  let* (l, _) := send_each h c ms in
  mapm (fun b => let* (_, ops) := from_wire (c_width (config o)) h b in Ok ops) l.
Definition three_messages : list message := map to_seven
  [[("a", "1"); (":method", "get"); ("b", "22"); (":path", "/x"); ("c", "3"); ("d", "4"); ("e", "5")];
   [("a", "1"); (":method", "get"); ("b", "22"); (":path", "/y"); ("c", "3"); ("d", "4"); ("e", "5"); ("f", "")];
   [("a", "2"); (":method", "get"); ("g", "4"); (":path", "/")]]%string.
Example C97_example : Forall message_ok three_messages /\
  frames_of default_options three_messages = Ok
    [[OKvsto false (lit "e") (lit "5"); OKvsto false (lit "d") (lit "4"); OKvsto false (lit "c") (lit "3"); OKvsto false (lit "b") (lit "22");
      OKvsto false (lit "a") (lit "1"); OClone true 0 (lit "/x"); OToggl false 1];
     [OKvsto false (lit "f") []; OClone true 5 (lit "/y"); OTrang false 0 4];
     [OKvsto false (lit "g") (lit "4"); OClone false 1 (lit "2"); OTrang false 1 6]].
Proof.
  split; [|vm_compute; reflexivity].
  unfold three_messages. apply Forall_forall. intros m Hm. apply in_map_iff in Hm as (d & <- & Hd). apply to_seven_ok.
  destruct Hd as [<-|[<-|[<-|[]]]]; repeat constructor.
Qed.
