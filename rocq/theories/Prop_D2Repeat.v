(** * Property C87: repeated messages in delta2. *)
From Coq Require Import String List NArith ZArith Bool Arith Lia Permutation.
From Verif Require Import PyBase PyStr BB_Model Lib_Model Lib_Spec Lib_Proofs Small_Model D2Huff_Model D2Huff_Dict D2Store_Model D2Wire_Model Prop_D2Huff Prop_D2Wire
  D2Code_Model D2Code_Store D2Code_Exec D2Code_Make D2Code_Round D2Code_Says D2Code_Repeat Prop_D2Code.
Import ListNotations.
Open Scope N_scope.
Open Scope py_scope.

(** ** Specification *)

(** The pairs of a name and a piece of its value, each once. *)
Definition pairs_of (d : hdict) (l : list (str * str)) : Prop := NoDup l /\ forall k y, In (k, y) l <-> carries d k y.

Definition sum_lengths (l : list (str * str)) : Z :=
  fold_right (fun p a => (Z.of_nat (length (fst p)) + Z.of_nat (length (snd p)) + a)%Z) 0%Z l.

(** The table's limits leave room for all the pairs beside what is in it. *)
Definition has_room (o : options) (c : code) (l : list (str * str)) : Prop :=
  (0 < c_max_byte_size (config o) /\ 0 < c_max_entries (config o) /\
   Z.of_nat (length (l_ring (s_lru (k_store c)))) + Z.of_nat (length l) <= c_max_entries (config o) /\
   l_bytes (s_lru (k_store c)) + sum_lengths l <= c_max_byte_size (config o))%Z.

Definition same_message (a b : message) : Prop := msg_headers a = msg_headers b /\ msg_group a = msg_group b.

(** A literal which both ends add to their tables. *)
Definition adds_entry (o : op) : Prop := exists i v, o = OClone false i v \/ exists k, o = OKvsto false k v.
(** A path given as a literal which is not kept. *)
Definition path_of (d : hdict) (o : op) : Prop := exists i v, o = OClone true i v /\ carries d (lit ":path") v.

(** The frame of a message without any instruction. *)
Definition empty_frame (gid : N) : str := [0; 0; 8; 1; 128; 0; 255; 255; gid].

(** ** Proofs *)

Lemma pairs_of_set d l : pairs_of d l -> Permutation l (headers_set d).
Proof.
  intros [N1 H]. destruct (headers_set_ok d) as [N2 _]. apply NoDup_Permutation; auto. intros [k y]. now rewrite H, carries_pairs.
Qed.
Lemma pairs_room o c d l : k_cfg c = config o -> pairs_of d l -> has_room o c l -> room c d.
Proof.
  intros Ec P (R1 & R2 & R3 & R4). apply pairs_of_set in P. unfold room. rewrite Ec, <- (Permutation_length P), <- (octets_perm _ _ P). repeat split; assumption.
Qed.

Lemma adds_storing o : storing o <-> adds_entry o.
Proof.
  split.
  - destruct o as [e i|e i s|[] i v|[] k v]; cbn; try tauto; intros _; [exists i|exists 0%Z]; exists v; [now left|right; now exists k].
  - intros (i & v & [->|[k ->]]); exact I.
Qed.

Lemma session_cfg h o c d : coder h -> session h o c d -> k_cfg c = config o /\ kinv c.
Proof.
  intros Hh S. split; [|now apply (session_inv h o c d)]. induction S as [c d E1 E2|c d m c' d' blob out S IH Hm E1 Hl E2].
  - destruct (kinv_new o) as (k & E & Ec & _). congruence.
  - destruct (session_inv h o c d Hh S) as [_ K]. destruct Hm as (Hb & _ & Ho & _).
    destruct (make_ok (msg_sender m) c (msg_headers m) (msg_group m) K Ho Hb) as (k' & is & E & _ & Ec & _). unfold compress_group in E1. rewrite E in E1. cbn [bind] in E1.
    destruct (to_wire _ _ _ _); [|discriminate]. cbn [bind] in E1. congruence.
Qed.

(** One sending, taken apart. *)
Lemma sending h c m : coder h -> kinv c -> message_ok m ->
  exists c' is blob, make_operations (msg_sender m) c (msg_headers m) (msg_group m) = Ok (c', is) /\
    compress_group h (msg_sender m) c (msg_headers m) (msg_group m) = Ok (c', blob) /\ to_wire (c_width (k_cfg c)) h is (msg_group m) = Ok blob /\
    kinv c' /\ k_cfg c' = k_cfg c /\
    (lenN blob <= 65536 -> from_wire (c_width (k_cfg c)) h blob = Ok (msg_group m, flat_map snd is)).
Proof.
  intros Hh K (Hb & Hg & Ho & _). destruct (make_ok (msg_sender m) c (msg_headers m) (msg_group m) K Ho Hb) as (c' & is & E & K' & Ec & V & _).
  destruct (C21_serialised h (c_width (k_cfg c)) is (msg_group m) Hh V Hg) as (blob & Ew & _ & R).
  exists c', is, blob. split; [exact E|]. unfold compress_group. rewrite E. cbn [bind]. rewrite Ec, Ew. cbn [bind]. auto.
Qed.

Lemma no_instructions w h : forall is b, flat_map snd is = [] -> output_all w h b is = Ok b.
Proof.
  induction is as [|[oc ops] is IH]; intros b E; cbn [output_all]; [reflexivity|]. cbn [flat_map snd] in E. apply app_eq_nil in E as [-> E]. cbn. now apply IH.
Qed.

Definition empty_wire (gid : N) : res str :=
  let* b := frames 1 bb_new [] 0 (65536 - 9) 0xffff gid in
  let (o, n) := bb_all b in let* d := bb_store bb_new o n in Ok (fst (bb_all d)).

Lemma empty_wire_ok gid : gid < 256 -> empty_wire gid = Ok (empty_frame gid).
Proof.
  assert (H : forallb (fun n => match empty_wire (N.of_nat n) with Ok b => str_eqb b (empty_frame (N.of_nat n)) | Err _ => false end) (seq 0 256) = true) by (vm_compute; reflexivity).
  intros Hg. rewrite forallb_forall in H. specialize (H (N.to_nat gid)). rewrite N2Nat.id in H.
  assert (I : In (N.to_nat gid) (seq 0 256)) by (apply in_seq; lia). apply H in I.
  destruct (empty_wire gid) as [b|]; [|discriminate]. destruct (str_eqb_spec b (empty_frame gid)); [congruence|discriminate].
Qed.

Lemma boilerplate_nine gid : gid < 256 -> exists b, boilerplate bb_new 0 0 0 gid 0 = Ok b /\ bb_bytes b = 9%nat.
Proof.
  assert (H : forallb (fun n => match boilerplate bb_new 0 0 0 (N.of_nat n) 0 with Ok b => Nat.eqb (bb_bytes b) 9 | Err _ => false end) (seq 0 256) = true) by (vm_compute; reflexivity).
  intros Hg. rewrite forallb_forall in H. specialize (H (N.to_nat gid)). rewrite N2Nat.id in H.
  assert (I : In (N.to_nat gid) (seq 0 256)) by (apply in_seq; lia). apply H in I.
  destruct (boilerplate bb_new 0 0 0 gid 0) as [b|]; [|discriminate]. exists b. split; [reflexivity|]. now apply Nat.eqb_eq.
Qed.

Lemma no_instructions_wire w h is gid : gid < 256 -> flat_map snd is = [] -> to_wire w h is gid = Ok (empty_frame gid).
Proof.
  intros Hg E. rewrite <- (empty_wire_ok gid Hg). unfold to_wire, serialize, empty_wire. rewrite (no_instructions w h is bb_new E). cbn [bind].
  change (bb_all bb_new) with (@nil N, 0%nat). cbv zeta. destruct (boilerplate_nine gid Hg) as (b & -> & Hb). cbn [bind]. rewrite Hb. reflexivity.
Qed.

(** The message after one which stored nothing. *)
Lemma next_sending h o c m c' is m' : coder h -> kinv c -> k_cfg c = config o -> o_hg_adjust o = false -> o_only_etoggles o = false ->
  message_ok m -> message_ok m' -> same_message m m' ->
  make_operations (msg_sender m) c (msg_headers m) (msg_group m) = Ok (c', is) -> kinv c' -> Forall (fun x => ~ storing x) (flat_map snd is) ->
  exists blob, compress_group h (msg_sender m') c' (msg_headers m') (msg_group m') = Ok (c', blob) /\
    (lenN blob <= 65536 -> exists ops, from_wire (c_width (config o)) h blob = Ok (msg_group m', ops) /\ Forall (path_of (msg_headers m')) ops) /\
    ((forall y, ~ carries (msg_headers m') (lit ":path") y) -> blob = empty_frame (msg_group m')).
Proof.
  intros Hh K Ec Ha He Hm Hm' [S1 S2] E K' Hn. pose proof Hm as (Hb & _ & Ho & _). pose proof Hm' as (Hb' & Hg' & Ho' & _).
  assert (A1 : c_hg_adjust (k_cfg c) = false) by (rewrite Ec; unfold config; destruct (o_small_index o); exact Ha).
  assert (A2 : c_only_e (k_cfg c) = false) by (rewrite Ec; unfold config; destruct (o_small_index o); exact He).
  destruct (plain_settles _ c _ _ c' is K Ho Hb A1 A2 E Hn) as (St & Ec' & _ & Gg).
  destruct (sending h c' m' Hh K' Hm') as (c2 & is2 & blob & E2 & Eb & Ew & _ & _ & R). rewrite S1, S2 in *.
  assert (B1 : c_hg_adjust (k_cfg c') = false) by (now rewrite Ec'). assert (B2 : c_only_e (k_cfg c') = false) by (now rewrite Ec').
  destruct (settled_step _ c' _ _ c2 is2 K' Ho' Hb' B1 B2 St E2) as (Q1 & Q2 & Q3).
  assert (Q : c2 = c') by (rewrite Q1, (gset_same _ _ _ Gg); destruct c'; reflexivity). clear Q1. subst c2.
  exists blob. split; [exact Eb|]. rewrite <- Ec, <- Ec'. split.
  - intros Hl. exists (flat_map snd is2). split; [now apply R|]. eapply Forall_impl; [|exact Q2]. intros x (i & v & -> & Hv). exists i, v. split; [reflexivity|]. now apply carries_pairs.
  - intros Np. rewrite (no_instructions_wire _ _ _ _ Hg') in Ew; [congruence|].
    destruct (flat_map snd is2) as [|x r] eqn:El; [reflexivity|exfalso]. inversion Q2 as [|? ? (i & v & _ & Hv) _]; subst. apply (Np v). now apply carries_pairs.
Qed.

(** ** C87 *)

(** After a message which added nothing to the tables, the same message to the
    same group leaves the compressor as it is and consists of the path only,
    if that is not in the table; without a path it is nine fixed octets. *)
Theorem C87_settled : forall h o c d m c' blob ops m', coder h -> session h o c d -> o_hg_adjust o = false -> o_only_etoggles o = false ->
  message_ok m -> message_ok m' -> same_message m m' ->
  compress_group h (msg_sender m) c (msg_headers m) (msg_group m) = Ok (c', blob) -> lenN blob <= 65536 ->
  from_wire (c_width (config o)) h blob = Ok (msg_group m, ops) -> Forall (fun x => ~ adds_entry x) ops ->
  exists blob', compress_group h (msg_sender m') c' (msg_headers m') (msg_group m') = Ok (c', blob') /\
    (lenN blob' <= 65536 -> exists ops', from_wire (c_width (config o)) h blob' = Ok (msg_group m', ops') /\ Forall (path_of (msg_headers m')) ops') /\
    ((forall y, ~ carries (msg_headers m') (lit ":path") y) -> blob' = empty_frame (msg_group m')).
Proof.
  intros h o c d m c' blob ops m' Hh S Ha He Hm Hm' Same E Hl F Hn. destruct (session_cfg h o c d Hh S) as [Ec K].
  destruct (sending h c m Hh K Hm) as (c2 & is & b2 & E1 & E2 & _ & K' & _ & R). assert (c2 = c' /\ b2 = blob) as [-> ->] by (split; congruence).
  rewrite Ec in R. apply (next_sending h o c m c' is m'); auto. rewrite (R Hl) in F. assert (ops = flat_map snd is) as -> by congruence.
  eapply Forall_impl; [|exact Hn]. intros x N C. apply N. now apply adds_storing.
Qed.
Print Assumptions C87_settled.

(** When the table has room for all of a message, sending it again adds nothing
    to the tables, and from the third time on it changes nothing at all and
    consists of the path only. *)
Theorem C87_three_times : forall h o c d l m1 m2 c1 b1, coder h -> session h o c d -> o_hg_adjust o = false -> o_only_etoggles o = false ->
  message_ok m1 -> message_ok m2 -> same_message m1 m2 -> pairs_of (msg_headers m1) l -> has_room o c l ->
  compress_group h (msg_sender m1) c (msg_headers m1) (msg_group m1) = Ok (c1, b1) ->
  exists c2 b2, compress_group h (msg_sender m2) c1 (msg_headers m2) (msg_group m2) = Ok (c2, b2) /\
    (lenN b2 <= 65536 -> exists ops, from_wire (c_width (config o)) h b2 = Ok (msg_group m2, ops) /\ Forall (fun x => ~ adds_entry x) ops) /\
    forall m3, message_ok m3 -> same_message m2 m3 ->
    exists b3, compress_group h (msg_sender m3) c2 (msg_headers m3) (msg_group m3) = Ok (c2, b3) /\
      (lenN b3 <= 65536 -> exists ops, from_wire (c_width (config o)) h b3 = Ok (msg_group m3, ops) /\ Forall (path_of (msg_headers m3)) ops) /\
      ((forall y, ~ carries (msg_headers m3) (lit ":path") y) -> b3 = empty_frame (msg_group m3)).
Proof.
  intros h o c d l m1 m2 c1 b1 Hh S Ha He Hm1 Hm2 Same P Hr E. destruct (session_cfg h o c d Hh S) as [Ec K].
  destruct (sending h c m1 Hh K Hm1) as (c1' & is1 & b1' & E1 & E1' & _ & K1 & Ec1 & _). assert (c1' = c1) as -> by congruence.
  pose proof Hm1 as (Hb1 & _ & Ho1 & _). pose proof Hm2 as (Hb2 & _ & Ho2 & _).
  assert (A1 : c_hg_adjust (k_cfg c) = false) by (rewrite Ec; unfold config; destruct (o_small_index o); exact Ha).
  destruct (room_known _ c _ _ c1 is1 K Ho1 Hb1 A1 (pairs_room o c _ _ Ec P Hr) E1 K1) as [_ Kn].
  destruct (sending h c1 m2 Hh K1 Hm2) as (c2 & is2 & b2 & E2 & E2' & _ & K2 & Ec2 & R2).
  pose proof Same as [Same1 _]. rewrite Same1 in Kn. pose proof (known_plain _ c1 _ _ c2 is2 K1 Ho2 Hb2 Kn E2) as Hn.
  exists c2, b2. split; [exact E2'|]. split.
  - intros Hl. exists (flat_map snd is2). rewrite <- Ec, <- Ec1. split; [now apply R2|]. eapply Forall_impl; [|exact Hn]. intros x N C. apply N. now apply adds_storing.
  - intros m3 Hm3 S3. apply (next_sending h o c1 m2 c2 is2 m3); auto. congruence.
Qed.
Print Assumptions C87_three_times.

(** The same message four times to a new codec: the lengths. *)
Definition to_seven (d : list (string * string)) : message :=
  mk_message (map (fun p => (lit (fst p), lit (snd p))) d) 7 backwards (fun z => z).
Fixpoint send_each (h : huffman) (c : code) (ms : list message) : res (list str * code) :=
  match ms with
  | [] => Ok ([], c)
  | m :: r => let* (c, b) := compress_group h (msg_sender m) c (msg_headers m) (msg_group m) in
              let* (l, c) := send_each h c r in Ok (b :: l, c)
  end.
Definition four_times (o : options) (m : message) : res (list str) :=
  let* h := new_huffman int_dict_order (with_symbols small_counts) in
  let* c := code_new o in
  let* (l, _) := send_each h c (repeat m 4) in Ok l.
Definition no_path : message := to_seven [("a", "1"); (":method", "get"); ("b", "22"); ("cookie", "x=1; y=2")]%string.
Definition with_path : message := to_seven [("a", "1"); (":path", "/x"); ("b", "22"); ("cookie", "x=1; y=2")]%string.

Lemma to_seven_ok d : Forall (fun p => is_bytes (lit (fst p)) /\ is_bytes (lit (snd p))) d -> message_ok (to_seven d).
Proof.
  intros H. split; [|split; [reflexivity|split; [exact backwards_ok|reflexivity]]].
  intros k v Hi. cbn [msg_headers to_seven] in Hi. apply in_map_iff in Hi as (p & E & Hp). rewrite Forall_forall in H. specialize (H p Hp). injection E as <- <-. exact H.
Qed.

Example C87_example :
  message_ok no_path /\ pairs_of (msg_headers no_path) (headers_set (msg_headers no_path)) /\
  (exists c, code_new default_options = Ok c /\ has_room default_options c (headers_set (msg_headers no_path))) /\
  (forall y, ~ carries (msg_headers no_path) (lit ":path") y) /\
  match four_times default_options no_path, four_times default_options with_path with
  | Ok [a1; a2; a3; a4], Ok [b1; b2; b3; b4] =>
      map (@length N) [a1; a2; a3; a4] = [32; 11; 9; 9]%nat /\ a3 = empty_frame 7 /\ a4 = a3 /\
      map (@length N) [b1; b2; b3; b4] = [35; 16; 14; 14]%nat /\ b4 = b3
  | _, _ => False
  end.
Proof.
  split; [|split; [|split; [|split]]].
  - apply to_seven_ok. repeat constructor.
  - destruct (headers_set_ok (msg_headers no_path)) as [H _]. split; [exact H|]. intros k y. symmetry. apply carries_pairs.
  - destruct (code_new_ok default_options) as (c & E & _ & _ & _ & Er). exists c. split; [exact E|]. unfold has_room. rewrite Er.
    assert (Eb : l_bytes (s_lru (k_store c)) = 0%Z).
    { revert E. unfold code_new. destruct (storage_new_ok (c_max_byte_size (config default_options)) (c_max_entries (config default_options)) (c_max_index (config default_options))) as (h0 & st & -> & _). cbn [bind]. intros E. injection E as <-. reflexivity. }
    rewrite Eb. vm_compute. intuition discriminate.
  - intros y C. apply carries_pairs in C. revert C. vm_compute. intuition discriminate.
  - vm_compute. repeat split.
Qed.

(** Without room every sending may add entries and the message never becomes
    small. *)
Definition small_table : options := mk_options (Some 4096%Z) (Some 3%Z) true true false false false false true.
Theorem C87_without_room_refuted : exists m, message_ok m /\ (forall y, ~ carries (msg_headers m) (lit ":path") y) /\
  match four_times small_table m with Ok l => map (@length N) l = [32; 18; 16; 17]%nat | Err _ => False end.
Proof.
  exists no_path. split; [apply to_seven_ok; repeat constructor|]. split; [|vm_compute; reflexivity].
  intros y C. apply carries_pairs in C. revert C. vm_compute. intuition discriminate.
Qed.
Print Assumptions C87_without_room_refuted.

(** When only ephemeral toggles are used, every sending names every header. *)
Definition only_ephemeral : options := mk_options (Some 4096%Z) (Some 8%Z) true true false false false true true.
Theorem C87_only_etoggles_refuted : exists m, message_ok m /\ (forall y, ~ carries (msg_headers m) (lit ":path") y) /\
  match four_times only_ephemeral m with Ok l => map (@length N) l = [32; 13; 13; 13]%nat | Err _ => False end.
Proof.
  exists no_path. split; [apply to_seven_ok; repeat constructor|]. split; [|vm_compute; reflexivity].
  intros y C. apply carries_pairs in C. revert C. vm_compute. intuition discriminate.
Qed.
Print Assumptions C87_only_etoggles_refuted.
