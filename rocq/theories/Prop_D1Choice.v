(** * Property C99: which instructions delta (v1)'s compressor sends. *)
From Coq Require Import String List NArith ZArith Bool Arith Lia Permutation.
From Verif Require Import PyBase PyStr Lib_Model Lib_Spec Lib_Proofs Small_Model D2Huff_Model D2Store_Model D2Code_Model Prop_D2Ranges D2Code_Sets D2Code_Says
  D1Huff_Model D1Wire_Model Prop_D1Wire D1Code_Model D1Code_Inv D1Code_Exec D1Code_Round Prop_D1Code Prop_D1Names D1Code_Choice.
Import ListNotations.
Open Scope N_scope.
Open Scope py_scope.

(** ** C99 *)

(** After any session, for every message that fits a frame: the instructions
    which the other end reads are exactly those which the table, the names it has
    learnt and the header group call for. *)
Theorem C99_instructions : forall dk iter h maxb maxv kind c d, visits iter -> coder1 h -> session1 dk iter h maxb maxv kind c d ->
  exists names, hears dk iter h maxb maxv d names /\
  ((Z.of_nat (length names) <= 65534)%Z -> forall m c' blob, message1_ok dk m ->
    compress1 dk iter h (m1_sender m) c (m1_headers m) (m1_group m) = Ok (c', blob) -> lenN blob <= 65536 ->
    exists ops, from_wire1 h blob = Ok (m1_group m, ops) /\ chosen1 names c (m1_group m) (m1_headers m) ops).
Proof.
  intros dk iter h maxb maxv kind c d Hi Hh S. destruct (C93_sent dk iter h maxb maxv kind c d Hi Hh S) as (names & N & _). exists names. split; [exact N|].
  intros L m c' blob Hm E Hl. destruct (session1_inv _ _ _ _ _ _ _ _ Hi Hh S) as (-> & I & B). pose proof (hears_order _ _ _ _ _ _ _ N L) as Ord.
  pose proof (session_stored dk iter Hi h maxb maxv kind c c Hh S) as St. pose proof (few_pieces dk m Hm) as Hf. destruct Hm as [M1 M2 _ M4 M5 M6]. destruct Hh as (table & Eh & Ht).
  assert (Em : exists i, make_operations1 dk iter (m1_sender m) c (m1_headers m) (m1_group m) = Ok (c', i)).
  { unfold compress1 in E. destruct (make_operations1 _ _ _ _ _ _) as [[c1 i]|]; cbn [bind] in E; [|discriminate]. destruct (to_wire1 h i (m1_group m)); cbn [bind] in E; [|discriminate].
    exists i. congruence. }
  destruct Em as (i & Em). destruct (sent_ops dk iter table h (m1_sender m) c (m1_headers m) (m1_group m) c' i c' blob Eh Ht I B M5 M1 M4 M2 Hf Em E Hl) as [Nt Er].
  exists (flat_map snd (wire_kinds i)). split; [exact Er|]. exact (make_chosen1 dk iter names (m1_sender m) c (m1_headers m) (m1_group m) c' i I St Ord M5 M2 Nt Em).
Qed.
Print Assumptions C99_instructions.

(** Paths and referers never get into the table of either end. *)
Theorem C99_not_in_table : forall dk iter h maxb maxv kind c d i n v, visits iter -> coder1 h -> session1 dk iter h maxb maxv kind c d ->
  In (n, v, i) (entries1 c) \/ In (n, v, i) (entries1 d) -> n <> lit ":path" /\ n <> lit "referer".
Proof.
  intros dk iter h maxb maxv kind c d i n v Hi Hh S. destruct (session1_inv _ _ _ _ _ _ _ _ Hi Hh S) as (-> & _).
  pose proof (session_stored dk iter Hi h maxb maxv kind c c Hh S) as St. intros H. assert (X : In (n, v, i) (entries1 c)) by tauto.
  unfold entries1 in X. apply in_map_iff in X as (e & Ee & He). assert (v_key e = n) as <- by congruence. exact (St e He).
Qed.
Print Assumptions C99_not_in_table.

(** So the text of a value is sent only when no entry has the pair or the name is
    one of the two which are never stored, and the text of a name only when it has not been learnt or is one of the two. *)
Theorem C99_text_only_if_needed : forall dk iter h maxb maxv kind c d, visits iter -> coder1 h -> session1 dk iter h maxb maxv kind c d ->
  exists names, hears dk iter h maxb maxv d names /\
  ((Z.of_nat (length names) <= 65534)%Z -> forall m c' blob, message1_ok dk m ->
    compress1 dk iter h (m1_sender m) c (m1_headers m) (m1_group m) = Ok (c', blob) -> lenN blob <= 65536 ->
    exists ops, from_wire1 h blob = Ok (m1_group m, ops) /\
    forall n v i, carries (m1_headers m) n v -> stored n -> In (n, v, i) (entries1 c) ->
      (forall j w, numbered names j n -> In (Clone j w) ops -> w <> v) /\ ~ In (Kvsto n v) ops /\ ~ In (Eref n v) ops).
Proof.
  intros dk iter h maxb maxv kind c d Hi Hh S. destruct (C99_instructions dk iter h maxb maxv kind c d Hi Hh S) as (names & N & H). exists names. split; [exact N|].
  intros L m c' blob Hm E Hl. destruct (H L m c' blob Hm E Hl) as (ops & F & [_ _ _ C K R]). exists ops. split; [exact F|]. intros n v i Hc Hs He. split; [|split].
  - intros j w Hj Ho ->. apply C in Ho as (n' & Hn' & _ & _ & X). assert (n' = n) as -> by (destruct Hj, Hn'; congruence). exact (X i He).
  - intros Ho. apply K in Ho as (Hn & _). pose proof (hears_order _ _ _ _ _ _ _ N L) as [Kk _].
    destruct (session1_inv _ _ _ _ _ _ _ _ Hi Hh S) as (-> & I & _). unfold entries1 in He. apply in_map_iff in He as (e & Ee & He).
    pose proof (ti_known _ _ (in_t _ _ I) e He) as X. assert (En : v_key e = n) by congruence. rewrite En in X. unfold kn in Kk. assert (Ek : t_keys (d_store c) = from 1 (dk :: names)) by congruence. rewrite Ek in X. apply X. apply find_from.
    intros [->|C']; [|contradiction]. destruct Hm as [_ M2 _ _ _ _]. destruct Hc as (w & ? & Hw & _). exact (M2 w Hw).
  - intros Ho. apply R in Ho as ([-> | ->] & _); destruct Hs; congruence.
Qed.
Print Assumptions C99_text_only_if_needed.

(** Four messages.  The first has six new names and a path.  In the second five
    entries leave the group, as one range; the name b, which was learnt as the fifth,
    is sent as the number 6 with a new value.  In the third that value leaves and four of the entries
    join again.  The fourth is to another group, which the entry for a joins. *)
Fixpoint frames_of1 (h : huffman) (c : code1) (ms : list message1) : res (list (list op1)) :=
  match ms with
  | [] => Ok []
  | m :: r =>
      let* (c, blob) := compress1 (lit "eref") gels h (m1_sender m) c (m1_headers m) (m1_group m) in
      let* (_, ops) := from_wire1 h blob in
      let* l := frames_of1 h c r in
      Ok (ops :: l)
  end.
Definition four_messages1 : list message1 := to1
  [([("a", "1"); ("b", "2"); ("c", "3"); ("d", "4"); ("e", "5"); ("f", "6"); (":path", "/x")], 7);
   ([("a", "1"); ("b", "9"); (":path", "/x"); ("referer", "r")], 7);
   ([("a", "1"); ("c", "3"); ("d", "4"); ("e", "5"); ("f", "6"); ("g", "")], 7);
   ([("a", "1")], 8)]%string.
Example C99_example : Forall (message1_ok (lit "eref")) four_messages1 /\
  (let* h := d1_huffman flat_table in frames_of1 h (code1_new (lit "eref") 4096 100) four_messages1) = Ok
    [[Kvsto (lit "f") (lit "6"); Kvsto (lit "e") (lit "5"); Kvsto (lit "d") (lit "4"); Kvsto (lit "c") (lit "3"); Kvsto (lit "b") (lit "2"); Kvsto (lit "a") (lit "1"); Eref (lit ":path") (lit "/x")];
     [Trang 76 72; Clone 6 (lit "9"); Eref (lit "referer") (lit "r"); Eref (lit ":path") (lit "/x")];
     [Toggl 80; Trang 75 72; Kvsto (lit "g") []];
     [Toggl 86]].
Proof.
  split; [|vm_compute; reflexivity]. unfold four_messages1. apply to1_ok. unfold to1. cbn [map].
  repeat constructor; cbn [m1_headers m1_group fst snd]; try (apply forallb_is_bytes; reflexivity); try discriminate; try reflexivity; vm_compute; lia.
Qed.
