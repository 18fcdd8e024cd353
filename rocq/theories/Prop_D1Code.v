(** * Properties C52 to C55: delta v1 sessions. *)
From Coq Require Import String List NArith ZArith Bool Arith Lia Permutation.
From Verif Require Import PyBase PyStr Lib_Model Lib_Spec Lib_Proofs Small_Model D2Huff_Model D2Store_Model D2Code_Model D2Code_Sets D2Code_Exec D2Code_Make D2Code_Round D2Code_Says Prop_D2Code
  D1Huff_Model D1Wire_Model Prop_D1Wire D1Code_Model D1Code_Inv D1Code_Store D1Code_Exec D1Code_Round.
Import ListNotations.
Open Scope N_scope.
Open Scope py_scope.

(** ** Sessions *)

(** Any coder made of a frequency table that has the end of text. *)
Definition coder1 (h : huffman) : Prop := exists table, d1_huffman table = Ok h /\ In 256 (map fst table).

(** The order in which the groups of an entry are visited is determined by what was
    done to that set, and visits every group once. *)
Definition visits (iter : list gop -> list N) : Prop := forall hist, Permutation (iter hist) (gels hist).

(** A message that may be sent: names and values are octet strings, no header has
    the name left over by a loop at the module's top level, there are at most 128 pairs of a name
    and a piece, the group fits its octet, and the iteration orders list every element once. *)
Record message1 := mk_message1 { m1_headers : hdict; m1_group : N; m1_sender : order1; m1_receiver : zset -> list Z }.
Record message1_ok (dk : str) (m : message1) : Prop := {
  mo_bytes : forall k v, In (k, v) (m1_headers m) -> is_bytes k /\ is_bytes v;
  mo_name : forall v, ~ In (dk, v) (m1_headers m);
  mo_few : exists ps, (length ps <= 128)%nat /\ forall k y, carries (m1_headers m) k y -> In (k, y) ps;
  mo_group : m1_group m < 256;
  mo_sender : order1_ok (m1_sender m);
  mo_receiver : forall z, Permutation (m1_receiver m z) z }.

(** Both ends after some messages, each of which fitted one frame and was of a
    certain kind. *)
Inductive session1 (dk : str) (iter : list gop -> list N) (h : huffman) (maxb maxv : Z) (kind : message1 -> Prop) : code1 -> code1 -> Prop :=
| session1_new : session1 dk iter h maxb maxv kind (code1_new dk maxb maxv) (code1_new dk maxb maxv)
| session1_step c d m c' d' blob out : session1 dk iter h maxb maxv kind c d -> message1_ok dk m -> kind m ->
    compress1 dk iter h (m1_sender m) c (m1_headers m) (m1_group m) = Ok (c', blob) -> lenN blob <= 65536 ->
    decompress1 dk iter h (m1_receiver m) d blob = Ok (d', out) -> session1 dk iter h maxb maxv kind c' d'.

Definition any_message (m : message1) : Prop := True.

Lemma few_pieces dk m : message1_ok dk m -> (length (headers_set (m1_headers m)) <= 128)%nat.
Proof.
  intros [_ _ (ps & Hl & Hp) _ _ _]. destruct (headers_set_ok (m1_headers m)) as [Hn _].
  assert (I : incl (headers_set (m1_headers m)) ps) by (intros [k y] H; apply Hp; now apply carries_pairs).
  apply NoDup_incl_length in I; [lia|exact Hn].
Qed.

Lemma message1_round dk iter h c m c' blob : visits iter -> coder1 h -> inv1 dk c -> bounded 128 (d_groups c) -> message1_ok dk m ->
  compress1 dk iter h (m1_sender m) c (m1_headers m) (m1_group m) = Ok (c', blob) ->
  inv1 dk c' /\ bounded 128 (d_groups c') /\
  (lenN blob <= 65536 -> exists out, decompress1 dk iter h (m1_receiver m) c blob = Ok (c', out) /\ reconstructed (m1_headers m) out).
Proof.
  intros Hi (table & Eh & Ht) I B Hm E. pose proof (few_pieces dk m Hm) as Hf. destruct Hm as [M1 M2 _ M4 M5 M6].
  destruct (round1 dk iter Hi table h (m1_sender m) (m1_receiver m) c (m1_headers m) (m1_group m) c' blob Eh Ht I B M5 M6 M1 M4 M2 Hf E) as (I' & B' & R).
  split; [exact I'|]. split; [exact B'|]. intros Hl. destruct (R Hl) as (out & L & Ed & P & ->). eexists. split; [exact Ed|]. exact (says_ok _ _ P).
Qed.

Lemma session1_inv dk iter h maxb maxv kind c d : visits iter -> coder1 h -> session1 dk iter h maxb maxv kind c d ->
  d = c /\ inv1 dk c /\ bounded 128 (d_groups c).
Proof.
  intros Hi Hh H. induction H as [|c d m c' d' blob out H [-> [I B]] Hm _ E1 Hl E2].
  - split; [reflexivity|]. split; [apply inv1_new|]. intros id z Hz. discriminate.
  - destruct (message1_round dk iter h c m c' blob Hi Hh I B Hm E1) as (I' & B' & R). destruct (R Hl) as (out2 & F2 & _).
    split; [congruence|]. split; assumption.
Qed.

(** ** C52 *)

(** At any moment of a session the two ends are in the same state, and if the
    compressor encodes a message in one frame, the other end decodes what was sent,
    and both ends are again in the same state. *)
Theorem C52_session : forall dk iter h maxb maxv c d, visits iter -> coder1 h -> session1 dk iter h maxb maxv any_message c d -> d = c /\
  forall m c' blob, message1_ok dk m -> compress1 dk iter h (m1_sender m) c (m1_headers m) (m1_group m) = Ok (c', blob) -> lenN blob <= 65536 ->
  exists out, decompress1 dk iter h (m1_receiver m) d blob = Ok (c', out) /\ reconstructed (m1_headers m) out.
Proof.
  intros dk iter h maxb maxv c d Hi Hh H. destruct (session1_inv _ _ _ _ _ _ _ _ Hi Hh H) as (-> & I & B). split; [reflexivity|]. intros m c' blob Hm E Hl.
  destruct (message1_round dk iter h c m c' blob Hi Hh I B Hm E) as (_ & _ & R). auto.
Qed.
Print Assumptions C52_session.

(** The same pairs of a name and a piece, when no cookie contains a NUL. *)
Theorem C52_same_pairs : forall dk iter h maxb maxv c d m c' blob, visits iter -> coder1 h -> session1 dk iter h maxb maxv any_message c d -> message1_ok dk m ->
  compress1 dk iter h (m1_sender m) c (m1_headers m) (m1_group m) = Ok (c', blob) -> lenN blob <= 65536 -> plain_cookie (m1_headers m) ->
  exists out, decompress1 dk iter h (m1_receiver m) d blob = Ok (c', out) /\ is_dict out /\ forall k y, carries out k y <-> carries (m1_headers m) k y.
Proof.
  intros dk iter h maxb maxv c d m c' blob Hi Hh H Hm E Hl Hp. destruct (C52_session dk iter h maxb maxv c d Hi Hh H) as [_ S].
  destruct (S m c' blob Hm E Hl) as (out & Ed & Ho). exists out. split; [exact Ed|]. split; [exact (proj1 Ho)|]. now apply reconstructed_plain.
Qed.
Print Assumptions C52_same_pairs.

Fixpoint send_all1 (dk : str) (iter iter' : list gop -> list N) (h : huffman) (c d : code1) (ms : list message1) : res (list (nat * hdict) * code1 * code1) :=
  match ms with
  | [] => Ok ([], c, d)
  | m :: r =>
      let* (c, blob) := compress1 dk iter h (m1_sender m) c (m1_headers m) (m1_group m) in
      let* (d, out) := decompress1 dk iter' h (m1_receiver m) d blob in
      let* (lc, d) := send_all1 dk iter iter' h c d r in
      let (l, c) := lc : list (nat * hdict) * code1 in
      Ok ((length blob, out) :: l, c, d)
  end.
Definition entries1 (c : code1) : list (str * str * Z) := map (fun e => (v_key e, v_val e, v_idx e)) (t_lru (d_store c)).

(** Everything iterated backwards. *)
Definition backwards1 : order1 := mk_order1 (@rev _) (@rev _) (@rev _) (@rev _).
Lemma backwards1_ok : order1_ok backwards1.
Proof. split; intros; cbn; symmetry; apply Permutation_rev. Qed.
Definition flat_table : list (N * N) := d1_table (repeat 1 257).
Lemma flat_coder h : d1_huffman flat_table = Ok h -> coder1 h.
Proof. intros E. exists flat_table. split; [exact E|]. vm_compute. tauto. Qed.
Lemma flat_some : exists h, d1_huffman flat_table = Ok h.
Proof. destruct (d1_huffman flat_table) eqn:E; [eauto|]. vm_compute in E. discriminate. Qed.

(** Room for three entries; five messages in two groups, with evictions, a split
    cookie, an empty value, and a path. *)
Definition to1 (ms : list (list (string * string) * N)) : list message1 :=
  map (fun '(d, g) => mk_message1 (map (fun p => (lit (fst p), lit (snd p))) d) g backwards1 (fun z => z)) ms.
Definition some_messages1 : list message1 := to1
  [([("a", "1"); ("cookie", "x=1; y=2"); (":path", "/")], 1); ([("a", "1"); ("b", ""); (":path", "/i")], 1);
   ([("a", "2"); ("c", "3"); ("e", "5"); ("cookie", "x=1")], 200); ([("a", "1"); ("c", "3"); ("cookie", "y=2")], 1); ([("c", "3"); ("cookie", "y=2")], 1)]%string.
Example C52_nontrivial :
  match d1_huffman flat_table with
  | Ok h => match send_all1 (lit "eref") gels gels h (code1_new (lit "eref") 4096 3) (code1_new (lit "eref") 4096 3) some_messages1 with
     | Ok (outs, c', d') =>
       outs = map (fun x => (fst x, map (fun p => (lit (fst p), lit (snd p))) (snd x)))
         [(47%nat, [("cookie", "y=2; x=1"); ("a", "1"); (":path", "/")]); (31%nat, [("a", "1"); ("b", ""); (":path", "/i")]);
          (29%nat, [("cookie", "x=1"); ("a", "2"); ("e", "5"); ("c", "3")]); (25%nat, [("c", "3"); ("cookie", "y=2"); ("a", "1")]);
          (15%nat, [("c", "3"); ("cookie", "y=2")])]%string /\
       entries1 c' = [(lit "a", lit "1", 85%Z); (lit "c", lit "3", 86%Z); (lit "cookie", lit "y=2", 87%Z)] /\ entries1 d' = entries1 c' /\
       d_groups c' = [(1, [87]%Z); (200, [86]%Z)] /\ d_groups d' = d_groups c'
     | Err _ => False
     end
  | Err _ => False
  end.
Proof. vm_compute. repeat split. Qed.

(** ** The processor under the harness's check *)

(** One processor object compresses and decompresses; the harness calls the
    two in turn.  [norm] is the regular expression that shortens host names. *)
Record call1 := mk_call1 { c1_headers : hdict; c1_host : str; c1_sender : order1; c1_receiver : zset -> list Z }.
Definition call1_ok (dk : str) (m : call1) : Prop := message1_ok dk (mk_message1 (c1_headers m) 0 (c1_sender m) (c1_receiver m)).

Inductive harness1 (dk : str) (iter : list gop -> list N) (norm : str -> str) (h : huffman) (maxb maxv : Z) : processor1 -> Prop :=
| harness1_new : harness1 dk iter norm h maxb maxv (proc1_new dk maxb maxv)
| harness1_step p m p1 blob p2 out : harness1 dk iter norm h maxb maxv p -> call1_ok dk m ->
    proc1_compress dk iter norm h (c1_sender m) p (c1_headers m) (c1_host m) = Ok (p1, blob) -> lenN blob <= 65536 ->
    proc1_decompress dk iter h (c1_receiver m) p1 blob = Ok (p2, out) -> harness1 dk iter norm h maxb maxv p2.

Record pinv1 (dk : str) (p : processor1) : Prop := {
  pn_inv : inv1 dk (p1_comp p);
  pn_small : bounded 128 (d_groups (p1_comp p));
  pn_same : p1_decomp p = p1_comp p;
  pn_hosts : forall n g, dget (p1_hosts p) n = Some g -> g < 256;
  pn_ids : is_ids (p1_ids p) = [] /\ is_max (p1_ids p) = 255 }.

Lemma call1_round dk iter norm h p m p1 blob : visits iter -> coder1 h -> pinv1 dk p -> call1_ok dk m ->
  proc1_compress dk iter norm h (c1_sender m) p (c1_headers m) (c1_host m) = Ok (p1, blob) -> lenN blob <= 65536 ->
  exists p2 out, proc1_decompress dk iter h (c1_receiver m) p1 blob = Ok (p2, out) /\ pinv1 dk p2 /\ reconstructed (c1_headers m) out.
Proof.
  intros Hi Hh [K Sm S Hg [I1 I2]] [M1 M2 M3 _ M5 M6]. unfold proc1_compress. set (n := norm (c1_host m)).
  assert (G : exists g hosts ids, (match dget (p1_hosts p) n with
     | Some g => (g, p1_hosts p, p1_ids p)
     | None => let (g, ids) := ids_get (fun _ => 0%nat) (p1_ids p) in (g, dset (p1_hosts p) n g, ids)
     end) = (g, hosts, ids) /\ g < 256 /\ (forall n g, dget hosts n = Some g -> g < 256) /\ is_ids ids = [] /\ is_max ids = 255).
  { destruct (dget (p1_hosts p) n) as [g|] eqn:En.
    - exists g, (p1_hosts p), (p1_ids p). repeat split; eauto.
    - unfold ids_get. rewrite I1, I2. set (g := if negb (255 =? 0) && (255 <=? is_next (p1_ids p) + 1) then 0 else is_next (p1_ids p) + 1).
      assert (Hlt : g < 256). { unfold g. change (negb (255 =? 0)) with true. cbn [andb]. destruct (N.leb_spec 255 (is_next (p1_ids p) + 1)); lia. }
      eexists _, _, _. split; [reflexivity|]. split; [exact Hlt|]. split; [|split; reflexivity].
      intros n' g' E. rewrite dget_dset in E. destruct (str_eqb n' n); [injection E as <-; exact Hlt|eauto]. }
  destruct G as (g & hosts & ids & -> & Hlt & Hh' & I1' & I2').
  destruct (compress1 dk iter h (c1_sender m) (p1_comp p) (c1_headers m) g) as [[c' b]|] eqn:E; cbn [bind]; [|discriminate]. intros E' Hl.
  assert (Eb : b = blob) by congruence. assert (Ep : p1 = mk_proc1 c' (p1_decomp p) hosts ids) by congruence. clear E'. subst b p1.
  destruct (message1_round dk iter h (p1_comp p) (mk_message1 (c1_headers m) g (c1_sender m) (c1_receiver m)) c' blob Hi Hh K Sm) as (K' & B' & R); [|exact E|].
  { split; cbn [m1_headers m1_group m1_sender m1_receiver]; assumption. }
  destruct (R Hl) as (out & Ed & Ho'). cbn [m1_headers m1_receiver] in *. unfold proc1_decompress. cbn [p1_decomp]. rewrite S, Ed. cbn [bind]. eexists _, out. split; [reflexivity|].
  split; [|exact Ho']. split; cbn; auto.
Qed.

Lemma harness1_inv dk iter norm h maxb maxv p : visits iter -> coder1 h -> harness1 dk iter norm h maxb maxv p -> pinv1 dk p.
Proof.
  intros Hi Hh H. induction H as [|p m p1 blob p2 out H IH Hm E1 Hl E2].
  - split; cbn [proc1_new p1_comp p1_decomp p1_hosts p1_ids]; [apply inv1_new|intros id z Hz; discriminate|reflexivity|discriminate|split; reflexivity].
  - destruct (call1_round dk iter norm h p m p1 blob Hi Hh IH Hm E1 Hl) as (p2' & out' & F2 & I & _). assert (p2' = p2) as -> by congruence. exact I.
Qed.

(** Whatever was sent before: if compress does not raise and the message fits one
    frame, decompress does not raise and the harness finds no difference. *)
Theorem C52_passes_harness_check : forall dk iter norm h maxb maxv p m ord a b p1 blob, visits iter -> coder1 h ->
  harness1 dk iter norm h maxb maxv p -> call1_ok dk m -> plain_cookie (c1_headers m) -> is_order ord ->
  proc1_compress dk iter norm h (c1_sender m) p (c1_headers m) (c1_host m) = Ok (p1, blob) -> lenN blob <= 65536 ->
  exists p2 out, proc1_decompress dk iter h (c1_receiver m) p1 blob = Ok (p2, out) /\ compare_headers ord (c1_headers m) a out b = [].
Proof.
  intros dk iter norm h maxb maxv p m ord a b p1 blob Hi Hh H Hm Hp Ho E1 Hl.
  destruct (call1_round dk iter norm h p m p1 blob Hi Hh (harness1_inv _ _ _ _ _ _ _ Hi Hh H) Hm E1 Hl) as (p2 & out & E2 & _ & Hr).
  exists p2, out. split; [exact E2|]. apply compare_verdict; [exact Ho|]. intros k y _. symmetry. now apply reconstructed_plain.
Qed.
Print Assumptions C52_passes_harness_check.

(** ** C53: when compression raises *)

(** Messages whose stored names are among the given ones, and whose stored
    pieces fit beside all of these. *)
Definition stored (k : str) : Prop := k <> lit ":path" /\ k <> lit "referer".
Definition octets (names : list str) : Z := fold_right (fun k n => Z.of_nat (length k) + n)%Z 0%Z names.
Definition within (names : list str) (maxb : Z) (m : message1) : Prop :=
  forall k y, carries (m1_headers m) k y -> stored k -> In k names /\ (octets names + Z.of_nat (length y) <= maxb)%Z.

Lemma octets_total names : octets names = total names.
Proof. induction names as [|k r IH]; cbn [octets fold_right total]; [reflexivity|]. unfold octets in IH. now rewrite IH. Qed.

Lemma within_ok dk iter h maxb maxv names c m : visits iter -> coder1 h -> (Z.of_nat (length names) <= 65536)%Z -> (maxv < 65470)%Z ->
  inv1 dk c -> sized names (d_store c) -> t_maxb (d_store c) = maxb -> t_maxv (d_store c) = maxv -> (Z.of_nat (length (t_lru (d_store c))) <= Z.max 1 maxv)%Z ->
  message1_ok dk m -> within names maxb m ->
  exists c' blob, compress1 dk iter h (m1_sender m) c (m1_headers m) (m1_group m) = Ok (c', blob) /\
  sized names (d_store c') /\ t_maxb (d_store c') = maxb /\ t_maxv (d_store c') = maxv /\ (Z.of_nat (length (t_lru (d_store c'))) <= Z.max 1 maxv)%Z.
Proof.
  intros Hi (table & Eh & Ht) Hn Hv I Sz Eb Ev Hl [M1 M2 _ M4 M5 M6] Hw.
  destruct (compress1_succeeds dk iter Hi names table h (m1_sender m) c (m1_headers m) (m1_group m) Eh Ht I Sz M5 M1 M4 M2) as (c' & blob & E & _ & S' & V' & B' & L'); try lia.
  - intros k v H Hs. destruct (Hw k v) as [A B]; [now apply carries_pairs|exact Hs|]. split; [exact A|]. unfold roomy. rewrite Eb, <- octets_total. exact B.
  - exists c', blob. split; [exact E|]. split; [exact S'|]. split; [congruence|]. split; [congruence|]. lia.
Qed.

(** A session of such messages never raises. *)
Theorem C53_never_raises : forall dk iter h maxb maxv names, visits iter -> coder1 h -> (Z.of_nat (length names) <= 65536)%Z -> (maxv < 65470)%Z ->
  forall c d, session1 dk iter h maxb maxv (within names maxb) c d -> forall m, message1_ok dk m -> within names maxb m ->
  exists c' blob, compress1 dk iter h (m1_sender m) c (m1_headers m) (m1_group m) = Ok (c', blob).
Proof.
  intros dk iter h maxb maxv names Hi Hh Hn Hv c d H m Hm Hw.
  assert (J : sized names (d_store c) /\ t_maxb (d_store c) = maxb /\ t_maxv (d_store c) = maxv /\ (Z.of_nat (length (t_lru (d_store c))) <= Z.max 1 maxv)%Z).
  { induction H as [|c d m0 c' d' blob out H IH Hm0 Hk E1 Hl E2]; [split; [apply sized_new|]; cbn; repeat split; lia|].
    destruct IH as (J1 & J2 & J3 & J4). destruct (session1_inv _ _ _ _ _ _ _ _ Hi Hh H) as (_ & I & _).
    destruct (within_ok dk iter h maxb maxv names c m0 Hi Hh Hn Hv I J1 J2 J3 J4 Hm0 Hk) as (c2 & blob2 & E & R). assert (c2 = c') as -> by congruence. exact R. }
  destruct J as (J1 & J2 & J3 & J4). destruct (session1_inv _ _ _ _ _ _ _ _ Hi Hh H) as (_ & I & _).
  destruct (within_ok dk iter h maxb maxv names c m Hi Hh Hn Hv I J1 J2 J3 J4 Hm Hw) as (c2 & blob2 & E & _). eauto.
Qed.
Print Assumptions C53_never_raises.

(** The default limits, and names of 10 octets altogether. *)
Example C53_nontrivial : forall ms, In ms some_messages1 -> within [lit "a"; lit "cookie"; lit "b"; lit "c"; lit "e"] 16384 ms.
Proof.
  intros m Hm k y H Hs. apply carries_pairs in H.
  assert (G : forallb (fun m => forallb (fun p => (str_eqb (fst p) (lit ":path") || existsb (str_eqb (fst p)) [lit "a"; lit "cookie"; lit "b"; lit "c"; lit "e"]) &&
    (Nat.leb (length (snd p)) 100)) (headers_set (m1_headers m))) some_messages1 = true) by (vm_compute; reflexivity).
  rewrite forallb_forall in G. specialize (G m Hm). rewrite forallb_forall in G. specialize (G (k, y) H). cbn [fst snd] in G. apply andb_true_iff in G as [G1 G2].
  apply Nat.leb_le in G2. split.
  - apply orb_true_iff in G1 as [G1|G1]; [destruct (str_eqb_spec k (lit ":path")) as [->|]; [destruct Hs; congruence|discriminate]|].
    apply existsb_exists in G1 as (x & Hx & G1). destruct (str_eqb_spec k x) as [->|]; [exact Hx|discriminate].
  - change (octets [lit "a"; lit "cookie"; lit "b"; lit "c"; lit "e"]) with 10%Z. lia.
Qed.

(** A single header that does not fit raises a NameError in the first message
    already, although there is nothing else in the table. *)
Lemma one_piece k v : ~ In 0 v -> ~ In 59 v -> trimmed v v -> headers_set [(k, v)] = [(k, v)].
Proof.
  intros H0 H1 Ht. unfold headers_set. cbn [flat_map fst snd app]. assert (E : pieces k v = [v]).
  { unfold pieces. apply trimmed_strip in Ht. destruct (str_eqb k (lit "cookie")); rewrite split_on_free by assumption; cbn [map]; now rewrite <- Ht. }
  rewrite E. reflexivity.
Qed.

Lemma perm_nil_eq {A} (l : list A) : Permutation l [] -> l = [].
Proof. intros H. symmetry in H. now apply Permutation_nil in H. Qed.
Lemma perm_one_eq {A} (l : list A) x : Permutation l [x] -> l = [x].
Proof. intros H. symmetry in H. now apply Permutation_length_1_inv in H. Qed.

Lemma make_space_empty dk pin t g sp adding : t_lru t = [] -> (t_num t + adding <= t_maxv t)%Z ->
  make_space dk pin (mk_code1 t g) sp adding = if (t_maxb t <? t_size t + sp)%Z then Err NameError else Ok (mk_code1 t g).
Proof.
  intros El Hn. unfold make_space. cbn [d_store]. rewrite El. cbn [length space_loop d_store]. destruct (Z.ltb_spec (t_maxv t) (t_num t + adding)); [lia|]. reflexivity.
Qed.
Lemma store_too_long dk maxb maxv k v gid g : str_eqb dk k = false -> (1 <= maxv)%Z -> (maxb < Z.of_nat (length k) + Z.of_nat (length v))%Z ->
  store_pair dk gid (mk_code1 (store1_new dk maxb maxv) g) (k, v) = Err NameError.
Proof.
  intros Ef Hv Hb. unfold store_pair, find_or_add_key. cbn [d_store]. unfold store1_new at 1. cbn [t_keys find_key]. rewrite Ef.
  rewrite make_space_empty; [|reflexivity|cbn; lia]. cbn [store1_new t_maxb t_size].
  destruct (Z.ltb_spec maxb (0 + Z.of_nat (length k))) as [L|L]; [reflexivity|]. cbn [bind d_store].
  destruct (kidx_unused (store1_new dk maxb maxv)) as (i & Ei); [cbn; lia|cbn; lia|]. cbn [store1_new t_kidx t_kid] in Ei |- *. rewrite Ei. cbn [bind d_store d_groups t_lru find_val find store1_new t_size t_maxb t_maxv t_num t_keys t_lid].
  unfold find_val. cbn [find]. rewrite make_space_empty; [|reflexivity|cbn; lia]. cbn [t_maxb t_size].
  destruct (Z.ltb_spec maxb (0 + Z.of_nat (length k) + Z.of_nat (length v))) as [L2|L2]; [reflexivity|lia].
Qed.

Theorem C53_too_long_raises : forall dk iter h maxb maxv o k v gid, order1_ok o -> stored k -> k <> dk -> ~ In 0 v -> ~ In 59 v -> trimmed v v ->
  (1 <= maxv)%Z -> (maxb < Z.of_nat (length k) + Z.of_nat (length v))%Z ->
  compress1 dk iter h o (code1_new dk maxb maxv) [(k, v)] gid = Err NameError.
Proof.
  intros dk iter h maxb maxv o k v gid [O1 O2 O3 O4] [Hk1 Hk2] Hdk H0 H1 Ht Hv Hb. unfold compress1, make_operations1. cbv zeta. cbn [code1_new d_store d_groups store1_new t_lru].
  rewrite (one_piece k v H0 H1 Ht). unfold cur_of, find_or_make. cbn [gget]. cbn [gset gget]. rewrite N.eqb_refl.
  rewrite (perm_nil_eq _ (O1 [])). cbn [keep_loop1 bind]. rewrite (perm_one_eq _ _ (O2 [(k, v)])). cbn [fold_left].
  assert (Ef : str_eqb dk k = false) by (destruct (str_eqb_spec dk k); congruence).
  assert (Em : make_op1 (store1_new dk maxb maxv) (mk_m1 [] [] [] []) (k, v) = mk_m1 [] [] [(k, v)] []).
  { unfold make_op1. replace (str_eqb k (lit ":path")) with false by (symmetry; destruct (str_eqb_spec k (lit ":path")); congruence).
    replace (str_eqb k (lit "referer")) with false by (symmetry; destruct (str_eqb_spec k (lit "referer")); congruence).
    unfold store1_new. cbn [orb t_keys find_key]. rewrite Ef. reflexivity. }
  change (mk_store1 [(dk, 1%Z)] [] 1 n_defaults 0 0 maxv maxb []) with (store1_new dk maxb maxv). rewrite Em. cbn [m1_tog m1_clone m1_kvsto m1_eref].
  change (zunion [] []) with (@nil Z).
  rewrite (perm_nil_eq _ (O3 [])). unfold instr_ops. cbn [i_toggl i_clone i_kvsto i_eref map app]. unfold execute1. cbv zeta. cbn [d_store d_groups find_or_make gget].
  unfold find_or_make. cbn [gget]. rewrite N.eqb_refl. unfold cur_of. cbn [gget]. rewrite N.eqb_refl. cbn [toggle_set flat_map toggled app fold_left].
  change (zsymdiff [] []) with (@nil Z). rewrite (perm_nil_eq _ (O4 [])). cbn [append_on bind exec_ops1 store_pairs app].
  rewrite (store_too_long dk maxb maxv k v gid _ Ef Hv Hb). reflexivity.
Qed.
Print Assumptions C53_too_long_raises.
Example C53_too_long_nontrivial : stored (lit "set-cookie") /\ trimmed (lit "id=1") (lit "id=1") /\
  compress1 (lit "eref") gels (mk_huffman [] DNone) backwards1 (code1_new (lit "eref") 13 1) [(lit "set-cookie", lit "id=1")] 1 = Err NameError.
Proof.
  split; [split; vm_compute; discriminate|]. split; [|vm_compute; reflexivity]. exists [], []. split; [reflexivity|]. repeat split; try constructor; vm_compute; discriminate.
Qed.

(** A header with the left-over name raises an AttributeError. *)
Theorem C53_left_over_name_raises : forall dk iter h maxb maxv o d v gid, order1_ok o -> stored dk -> In (dk, v) d ->
  compress1 dk iter h o (code1_new dk maxb maxv) d gid = Err AttributeError.
Proof.
  intros dk iter h maxb maxv o d v gid [O1 O2 O3 O4] [Hk1 Hk2] Hin. unfold compress1, make_operations1. cbv zeta. cbn [code1_new d_store d_groups store1_new t_lru].
  unfold cur_of, find_or_make. cbn [gget]. cbn [gset gget]. rewrite N.eqb_refl. rewrite (perm_nil_eq _ (O1 [])). cbn [keep_loop1 bind].
  assert (Hp : exists y, In (dk, y) (r1_headers o (headers_set d))).
  { destruct (pieces dk v) as [|y ys] eqn:Ep.
    - exfalso. unfold pieces in Ep. apply map_eq_nil in Ep. revert Ep. apply split_on_nonempty.
    - exists y. eapply Permutation_in; [symmetry; apply O2|]. apply headers_set_ok, all_pairs_in. exists v. split; [exact Hin|]. rewrite Ep. now left. }
  set (t := store1_new dk maxb maxv). change (mk_store1 [(dk, 1%Z)] [] 1 n_defaults 0 0 maxv maxb []) with t.
  assert (F : forall l m, m1_tog (fold_left (make_op1 t) l m) = m1_tog m /\ exists cl, m1_clone (fold_left (make_op1 t) l m) = m1_clone m ++ cl /\ Forall (fun p => fst p = 1%Z) cl /\ ((exists y, In (dk, y) l) -> cl <> [])).
  { induction l as [|[k x] l IH]; intros m; cbn [fold_left]; [split; [reflexivity|]; exists []; rewrite app_nil_r; repeat split; [constructor|intros (y & [])]|].
    destruct (IH (make_op1 t m (k, x))) as (A & cl & B & C & D). rewrite A, B. unfold make_op1.
    destruct (str_eqb k (lit ":path") || str_eqb k (lit "referer")) eqn:En.
    { cbn [m1_tog m1_clone]. split; [reflexivity|]. exists cl. split; [reflexivity|]. split; [exact C|]. intros (y & [E|H]); [|apply D; eauto]. injection E as -> _.
      apply orb_true_iff in En as [En|En]; [destruct (str_eqb_spec dk (lit ":path"))|destruct (str_eqb_spec dk (lit "referer"))]; congruence. }
    cbn [t store1_new t_keys find_key t_lru]. destruct (str_eqb_spec dk k) as [->|N]; cbn [find_val find m1_tog m1_clone]; (split; [reflexivity|]).
    - exists ((1%Z, x) :: cl). rewrite <- app_assoc. split; [reflexivity|]. split; [now constructor|]. discriminate.
    - exists cl. split; [reflexivity|]. split; [exact C|]. intros (y & [E|H]); [congruence|]. apply D. eauto. }
  destruct (F (r1_headers o (headers_set d)) (mk_m1 [] [] [] [])) as (A & cl & B & C & D). specialize (D Hp). cbn [m1_tog m1_clone app] in A, B.
  set (m := fold_left _ _ _) in *. rewrite A, B. change (zunion [] []) with (@nil Z). rewrite (perm_nil_eq _ (O3 [])).
  destruct cl as [|[x y] cl]; [congruence|]. inversion C as [|? ? C1 C2]; subst. cbn [fst] in C1. subst x.
  unfold instr_ops. cbn [i_toggl i_clone i_kvsto i_eref map app]. unfold execute1. cbv zeta. cbn [d_store d_groups].
  unfold find_or_make. cbn [gget]. rewrite N.eqb_refl. unfold cur_of. cbn [gget]. rewrite N.eqb_refl.
  match goal with |- context [toggle_set ?l] => assert (Et : toggle_set l = []) end.
  { unfold toggle_set. change (Clone 1 y :: map (fun '(k, v0) => Clone k v0) cl ++ map (fun '(k, v0) => Kvsto k v0) (m1_kvsto m) ++ map (fun '(k, v0) => Eref k v0) (m1_eref m))
      with (lit_ops ((1%Z, y) :: cl) (m1_kvsto m) (m1_eref m)). now rewrite toggled_lits. }
  rewrite Et. change (zsymdiff [] []) with (@nil Z). rewrite (perm_nil_eq _ (O4 [])). cbn [append_on bind exec_ops1 d_store t store1_new t_kidx find_kidx]. reflexivity.
Qed.
Print Assumptions C53_left_over_name_raises.
Example C53_left_over_nontrivial : stored (lit "eref") /\
  compress1 (lit "eref") gels (mk_huffman [] DNone) backwards1 (code1_new (lit "eref") 16384 4096) [(lit "a", lit "1"); (lit "eref", lit "2")] 1 = Err AttributeError.
Proof. split; [split; vm_compute; discriminate|vm_compute; reflexivity]. Qed.

(** ** C54 *)

(** At both ends there are never more entries than the configured number (or one,
    if that is less than one). *)
Theorem C54_entries : forall dk iter h maxb maxv kind c d, visits iter -> coder1 h -> session1 dk iter h maxb maxv kind c d ->
  (Z.of_nat (length (entries1 c)) <= Z.max 1 maxv)%Z /\ (Z.of_nat (length (entries1 d)) <= Z.max 1 maxv)%Z.
Proof.
  intros dk iter h maxb maxv kind c d Hi Hh H.
  assert (J : t_maxv (d_store c) = maxv /\ (Z.of_nat (length (entries1 c)) <= Z.max 1 maxv)%Z).
  { unfold entries1. rewrite map_length. induction H as [|c d m c' d' blob out H (J1 & J2) Hm Hk E1 Hl E2]; [cbn; split; [reflexivity|lia]|].
    destruct (session1_inv _ _ _ _ _ _ _ _ Hi Hh H) as (_ & I & _). destruct Hm as [M1 M2 _ M4 M5 M6].
    destruct (compress1_limits dk iter Hi h _ _ _ _ _ _ I M5 M2 E1) as (V & _ & L). rewrite J1 in V, L. auto. }
  destruct (session1_inv _ _ _ _ _ _ _ _ Hi Hh H) as (-> & _). tauto.
Qed.
Print Assumptions C54_entries.

(** What [send_all1] computes is a session, when the messages are allowed and fit a frame. *)
Lemma send_session dk iter h maxb maxv kind ms : forall c d outs c' d', session1 dk iter h maxb maxv kind c d ->
  Forall (message1_ok dk) ms -> Forall kind ms -> send_all1 dk iter iter h c d ms = Ok (outs, c', d') -> Forall (fun p => N.of_nat (fst p) <= 65536) outs ->
  session1 dk iter h maxb maxv kind c' d'.
Proof.
  induction ms as [|m ms IH]; intros c d outs c' d' H Hm Hk; cbn [send_all1]; [intros E _; congruence|].
  destruct (compress1 dk iter h (m1_sender m) c (m1_headers m) (m1_group m)) as [[c1 blob]|] eqn:E1; cbn [bind]; [|discriminate].
  destruct (decompress1 dk iter h (m1_receiver m) d blob) as [[d1 out]|] eqn:E2; cbn [bind]; [|discriminate].
  destruct (send_all1 dk iter iter h c1 d1 ms) as [[[l c2] d2]|] eqn:E3; cbn [bind]; [|discriminate]. intros E Ho.
  inversion Hm as [|? ? M1 M2]; subst. inversion Hk as [|? ? K1 K2]; subst. assert (outs = (length blob, out) :: l) as -> by congruence. inversion Ho as [|? ? O1 O2]; subst.
  assert (c2 = c') as -> by congruence. assert (d2 = d') as -> by congruence. apply (IH c1 d1 l c' d'); auto. now apply (session1_step _ _ _ _ _ _ c d m _ _ blob out).
Qed.

Lemma to1_ok dk ms : Forall (fun m => Forall (fun p => is_bytes (fst p) /\ is_bytes (snd p) /\ fst p <> dk) (m1_headers m) /\ m1_group m < 256 /\ (length (headers_set (m1_headers m)) <= 128)%nat) (to1 ms) ->
  Forall (message1_ok dk) (to1 ms).
Proof.
  intros H. rewrite Forall_forall in H |- *. intros m Hm. destruct (H m Hm) as (A & B & C). rewrite Forall_forall in A.
  unfold to1 in Hm. apply in_map_iff in Hm as ([x g] & <- & _). cbn [m1_headers m1_group] in *. split; cbn [m1_headers m1_group m1_sender m1_receiver]; auto.
  - intros k v Hkv. specialize (A _ Hkv). tauto.
  - intros v Hkv. specialize (A _ Hkv). cbn in A. tauto.
  - exists (headers_set (map (fun p : string * string => (lit (fst p), lit (snd p))) x)). split; [exact C|]. intros k y Hk. now apply carries_pairs.
  - apply backwards1_ok.
Qed.

(** The octets of names and values in the table. *)
Definition table_octets (c : code1) : Z := fold_right (fun e n => Z.of_nat (length (v_key e)) + Z.of_nat (length (v_val e)) + n)%Z 0%Z (t_lru (d_store c)).

(** The limit on octets is not kept: values are never counted, so two headers of 17
    octets stay in a table of 24. *)
Definition two_long : list message1 := to1 [([("a", "0123456789abcdef")], 1); ([("a", "0123456789abcdeg")], 1)]%string.
Lemma two_long_ok : Forall (message1_ok (lit "eref")) two_long.
Proof.
  unfold two_long. apply to1_ok. unfold to1. cbn [map]. repeat constructor; cbn [m1_headers m1_group fst snd]; try (apply forallb_is_bytes; reflexivity); try discriminate; try reflexivity; vm_compute; lia.
Qed.
Theorem C54_octets_refuted : exists h c d, coder1 h /\ session1 (lit "eref") gels h 24 4096 any_message c d /\ (24 < table_octets c)%Z /\ t_size (d_store c) = 1%Z.
Proof.
  destruct flat_some as (h & Eh).
  assert (W : match d1_huffman flat_table with
    | Ok h => match send_all1 (lit "eref") gels gels h (code1_new (lit "eref") 24 4096) (code1_new (lit "eref") 24 4096) two_long with
       | Ok (outs, c, d) => (forallb (fun p => N.of_nat (fst p) <=? 65536) outs && (24 <? table_octets c)%Z && (t_size (d_store c) =? 1)%Z) = true
       | Err _ => False
       end
    | Err _ => False
    end) by (vm_compute; reflexivity).
  rewrite Eh in W. destruct (send_all1 _ _ _ _ _ _ _) as [[[outs c] d]|] eqn:Es; [|contradiction]. apply andb_true_iff in W as [W W3]. apply andb_true_iff in W as [W1 W2].
  apply Z.ltb_lt in W2. apply Z.eqb_eq in W3.
  exists h, c, d. split; [now apply flat_coder|]. split; [|split; assumption].
  apply (send_session (lit "eref") gels h 24 4096 any_message two_long _ _ outs _ _ (session1_new _ _ _ _ _ _) two_long_ok); [|exact Es|].
  - apply Forall_forall. intros m _. exact I.
  - apply Forall_forall. intros p Hp. rewrite forallb_forall in W1. specialize (W1 p Hp). now apply N.leb_le in W1.
Qed.
Print Assumptions C54_octets_refuted.

(** ** C55 *)

(** As [session1], but the two ends visit the groups of an entry in orders of their
    own ([iter] at the sender, [iter'] at the receiver), as two Python processes may. *)
Inductive session2 (dk : str) (iter iter' : list gop -> list N) (h : huffman) (maxb maxv : Z) (kind : message1 -> Prop) : code1 -> code1 -> Prop :=
| session2_new : session2 dk iter iter' h maxb maxv kind (code1_new dk maxb maxv) (code1_new dk maxb maxv)
| session2_step c d m c' d' blob out : session2 dk iter iter' h maxb maxv kind c d -> message1_ok dk m -> kind m ->
    compress1 dk iter h (m1_sender m) c (m1_headers m) (m1_group m) = Ok (c', blob) -> lenN blob <= 65536 ->
    decompress1 dk iter' h (m1_receiver m) d blob = Ok (d', out) -> session2 dk iter iter' h maxb maxv kind c' d'.

(** The statement of C55: whatever the two orders, messages arrive. *)
Definition any_orders_work : Prop := forall dk iter iter' h maxb maxv c d, visits iter -> visits iter' -> coder1 h -> session2 dk iter iter' h maxb maxv any_message c d ->
  forall m c' blob, message1_ok dk m -> compress1 dk iter h (m1_sender m) c (m1_headers m) (m1_group m) = Ok (c', blob) -> lenN blob <= 65536 ->
  exists d' out, decompress1 dk iter' h (m1_receiver m) d blob = Ok (d', out) /\ reconstructed (m1_headers m) out.

Definition reversed (hist : list gop) : list N := rev (gels hist).
Lemma reversed_visits : visits reversed.
Proof. intros hist. symmetry. apply Permutation_rev. Qed.
Lemma gels_visits : visits gels.
Proof. intros hist. apply Permutation_refl. Qed.

(** It is false: the same header is sent three times, to group 1, to group 2 and to
    group 1 again; the third time nothing arrives. *)
Definition two_groups : list message1 := to1 [([("a", "1")], 1); ([("a", "1")], 2)]%string.
Definition third : message1 := mk_message1 [(lit "a", lit "1")] 1 backwards1 (fun z => z).
Lemma two_groups_ok : Forall (message1_ok (lit "eref")) two_groups.
Proof.
  unfold two_groups. apply to1_ok. unfold to1. cbn [map]. repeat constructor; cbn [m1_headers m1_group fst snd]; try discriminate; try reflexivity; vm_compute; lia.
Qed.
Lemma third_ok : message1_ok (lit "eref") third.
Proof.
  assert (H : Forall (message1_ok (lit "eref")) (to1 [([("a", "1")], 1)]%string)).
  { apply to1_ok. unfold to1. cbn [map]. repeat constructor; cbn [m1_headers m1_group fst snd]; try discriminate; try reflexivity; vm_compute; lia. }
  inversion H. assumption.
Qed.
Lemma send_session2 dk iter iter' h maxb maxv ms : forall c d outs c' d', session2 dk iter iter' h maxb maxv any_message c d ->
  Forall (message1_ok dk) ms -> send_all1 dk iter iter' h c d ms = Ok (outs, c', d') -> Forall (fun p => N.of_nat (fst p) <= 65536) outs ->
  session2 dk iter iter' h maxb maxv any_message c' d'.
Proof.
  induction ms as [|m ms IH]; intros c d outs c' d' H Hm; cbn [send_all1]; [intros E _; congruence|].
  destruct (compress1 dk iter h (m1_sender m) c (m1_headers m) (m1_group m)) as [[c1 blob]|] eqn:E1; cbn [bind]; [|discriminate].
  destruct (decompress1 dk iter' h (m1_receiver m) d blob) as [[d1 out]|] eqn:E2; cbn [bind]; [|discriminate].
  destruct (send_all1 dk iter iter' h c1 d1 ms) as [[[l c2] d2]|] eqn:E3; cbn [bind]; [|discriminate]. intros E Ho.
  inversion Hm as [|? ? M1 M2]; subst. assert (outs = (length blob, out) :: l) as -> by congruence. inversion Ho as [|? ? O1 O2]; subst.
  assert (c2 = c') as -> by congruence. assert (d2 = d') as -> by congruence. apply (IH c1 d1 l c' d'); auto. now apply (session2_step _ _ _ _ _ _ _ c d m _ _ blob out).
Qed.
Theorem C55_order_refuted : ~ any_orders_work.
Proof.
  intros C. destruct flat_some as (h & Eh).
  assert (W : match d1_huffman flat_table with
    | Ok h => match send_all1 (lit "eref") gels reversed h (code1_new (lit "eref") 16384 4096) (code1_new (lit "eref") 16384 4096) two_groups with
       | Ok (outs, c, d) => forallb (fun p => N.of_nat (fst p) <=? 65536) outs &&
          match compress1 (lit "eref") gels h backwards1 c (m1_headers third) 1 with
          | Ok (_, blob) => (lenN blob <=? 65536) && match decompress1 (lit "eref") reversed h (fun z => z) d blob with Ok (_, []) => true | _ => false end
          | Err _ => false
          end = true
       | Err _ => False
       end
    | Err _ => False
    end) by (vm_compute; reflexivity).
  rewrite Eh in W. destruct (send_all1 _ _ _ _ _ _ _) as [[[outs c] d]|] eqn:Es; [|contradiction]. apply andb_true_iff in W as [W1 W].
  destruct (compress1 (lit "eref") gels h backwards1 c (m1_headers third) 1) as [[c' blob]|] eqn:E1; [|discriminate]. apply andb_true_iff in W as [W2 W].
  destruct (decompress1 (lit "eref") reversed h (fun z => z) d blob) as [[d' out]|] eqn:E2; [|discriminate]. destruct out as [|x out]; [|discriminate].
  apply N.leb_le in W2.
  destruct (C (lit "eref") gels reversed h 16384%Z 4096%Z c d) with (m := third) (c' := c') (blob := blob) as (d2 & out2 & E3 & R).
  - exact gels_visits.
  - exact reversed_visits.
  - now apply flat_coder.
  - apply (send_session2 (lit "eref") gels reversed h 16384 4096 two_groups _ _ outs _ _ (session2_new _ _ _ _ _ _ _) two_groups_ok Es).
    apply Forall_forall. intros p Hp. rewrite forallb_forall in W1. specialize (W1 p Hp). now apply N.leb_le in W1.
  - apply third_ok.
  - exact E1.
  - exact W2.
  - cbn [m1_receiver third] in E3. rewrite E2 in E3. assert (out2 = []) as -> by congruence. destruct R as (_ & R & _).
    assert (A : carries (m1_headers third) (lit "a") (lit "1")) by (apply carries_pairs; vm_compute; now left).
    apply R in A; [|discriminate]. apply carries_pairs in A. exact A.
Qed.
Print Assumptions C55_order_refuted.

(** It is true as long as all messages go to one group: then the ends stay in the
    same state whatever their orders. *)
Theorem C55_one_group : forall dk iter iter' h maxb maxv gid c d, visits iter -> visits iter' -> coder1 h ->
  session2 dk iter iter' h maxb maxv (fun m => m1_group m = gid) c d -> d = c /\
  forall m c' blob, message1_ok dk m -> m1_group m = gid -> compress1 dk iter h (m1_sender m) c (m1_headers m) (m1_group m) = Ok (c', blob) -> lenN blob <= 65536 ->
  exists out, decompress1 dk iter' h (m1_receiver m) d blob = Ok (c', out) /\ reconstructed (m1_headers m) out.
Proof.
  intros dk iter iter' h maxb maxv gid c d Hi Hi' (table & Eh & Ht) H.
  assert (Step : forall c m c' blob, inv1 dk c -> bounded 128 (d_groups c) -> (forall id, gget (d_groups c) id <> None -> id = gid) -> message1_ok dk m -> m1_group m = gid ->
    compress1 dk iter h (m1_sender m) c (m1_headers m) (m1_group m) = Ok (c', blob) ->
    inv1 dk c' /\ bounded 128 (d_groups c') /\ (forall id, gget (d_groups c') id <> None -> id = gid) /\
    (lenN blob <= 65536 -> exists out, decompress1 dk iter' h (m1_receiver m) c blob = Ok (c', out) /\ reconstructed (m1_headers m) out)).
  { clear c d H. intros c m c' blob I B D Hm Hg E. pose proof (few_pieces dk m Hm) as Hf. destruct Hm as [M1 M2 _ M4 M5 M6].
    destruct (round1_any dk iter Hi table h (m1_sender m) (m1_receiver m) c (m1_headers m) (m1_group m) c' blob Eh Ht I B M5 M6 M1 M4 M2 Hf E) as (I' & B' & D' & R).
    rewrite Hg in D', R. assert (U : forall g, (forall id, gget g id <> None -> id = gid \/ gget (d_groups c) id <> None) -> forall id, gget g id <> None -> id = gid).
    { intros g Hd id Hid. destruct (Hd id Hid) as [->|X]; [reflexivity|now apply D]. }
    split; [exact I'|]. split; [exact B'|]. split; [exact (U _ D')|]. intros Hl. destruct (R Hl iter') as (out & L & Ed & P & ->).
    - intros c2 I2 D2. apply (adjust1_same dk iter Hi); [exact Hi'|exact I2|exact (U _ D2)].
    - eexists. split; [exact Ed|]. exact (says_ok _ _ P). }
  assert (J : d = c /\ inv1 dk c /\ bounded 128 (d_groups c) /\ forall id, gget (d_groups c) id <> None -> id = gid).
  { induction H as [|c d m c' d' blob out H (-> & I & B & D) Hm Hk E1 Hl E2].
    - split; [reflexivity|]. split; [apply inv1_new|]. split; [intros id z Hz; discriminate|]. intros id Hid. cbn in Hid. congruence.
    - destruct (Step c m c' blob I B D Hm Hk E1) as (I' & B' & D' & R). destruct (R Hl) as (out2 & F2 & _). split; [congruence|]. auto. }
  destruct J as (-> & I & B & D). split; [reflexivity|]. intros m c' blob Hm Hg E Hl. destruct (Step c m c' blob I B D Hm Hg E) as (_ & _ & _ & R). auto.
Qed.
Print Assumptions C55_one_group.

(** Two ends with different orders, one group, and an entry that is toggled off and on. *)
Example C55_one_group_nontrivial :
  match d1_huffman flat_table with
  | Ok h => match send_all1 (lit "eref") gels reversed h (code1_new (lit "eref") 16384 4096) (code1_new (lit "eref") 16384 4096)
              (to1 [([("a", "1"); ("b", "2")], 7); ([("b", "2")], 7); ([("a", "1")], 7)])%string with
     | Ok (outs, c, d) => map snd outs = [[(lit "b", lit "2"); (lit "a", lit "1")]; [(lit "b", lit "2")]; [(lit "a", lit "1")]] /\
          d_groups c = [(7, [71]%Z)] /\ d_groups d = d_groups c
     | Err _ => False
     end
  | Err _ => False
  end.
Proof. vm_compute. repeat split. Qed.

(** Also at one end: after a message, the group it was sent to need not hold what
    was sent.  A header sent to group 2 and then to group 1 is afterwards in group 2 only
    (the loop over an entry's groups overwrites the message's group). *)
Definition group_holds (c : code1) (g : N) (k v : str) : Prop := exists z e, gget (d_groups c) g = Some z /\ In e (t_lru (d_store c)) /\ v_key e = k /\ v_val e = v /\ In (v_idx e) z.
Definition own_group_holds : Prop := forall dk iter h maxb maxv c d m c' blob, visits iter -> coder1 h -> session1 dk iter h maxb maxv any_message c d -> message1_ok dk m ->
  compress1 dk iter h (m1_sender m) c (m1_headers m) (m1_group m) = Ok (c', blob) ->
  forall k v, carries (m1_headers m) k v -> stored k -> (Z.of_nat (length (headers_set (m1_headers m))) <= maxv)%Z -> group_holds c' (m1_group m) k v.
Definition first : list message1 := to1 [([("a", "1")], 2)]%string.
Lemma first_ok : Forall (message1_ok (lit "eref")) first.
Proof.
  unfold first. apply to1_ok. unfold to1. cbn [map]. repeat constructor; cbn [m1_headers m1_group fst snd]; try discriminate; try reflexivity; vm_compute; lia.
Qed.
Theorem C55_own_group_refuted : ~ own_group_holds.
Proof.
  intros C. destruct flat_some as (h & Eh).
  assert (W : match d1_huffman flat_table with
    | Ok h => match send_all1 (lit "eref") gels gels h (code1_new (lit "eref") 16384 4096) (code1_new (lit "eref") 16384 4096) first with
       | Ok (outs, c, d) => forallb (fun p => N.of_nat (fst p) <=? 65536) outs &&
          match compress1 (lit "eref") gels h backwards1 c (m1_headers third) 1 with
          | Ok (c', _) => match gget (d_groups c') 1 with Some [] => true | _ => false end
          | Err _ => false
          end = true
       | Err _ => False
       end
    | Err _ => False
    end) by (vm_compute; reflexivity).
  rewrite Eh in W. destruct (send_all1 _ _ _ _ _ _ _) as [[[outs c] d]|] eqn:Es; [|contradiction]. apply andb_true_iff in W as [W1 W].
  destruct (compress1 (lit "eref") gels h backwards1 c (m1_headers third) 1) as [[c' blob]|] eqn:E1; [|discriminate].
  destruct (C (lit "eref") gels h 16384%Z 4096%Z c d third c' blob) with (k := lit "a") (v := lit "1") as (z & e & Hz & _ & _ & _ & Hin).
  - exact gels_visits.
  - now apply flat_coder.
  - apply (send_session (lit "eref") gels h 16384 4096 any_message first _ _ outs _ _ (session1_new _ _ _ _ _ _) first_ok); [apply Forall_forall; intros m _; exact I|exact Es|].
    apply Forall_forall. intros p Hp. rewrite forallb_forall in W1. specialize (W1 p Hp). now apply N.leb_le in W1.
  - apply third_ok.
  - exact E1.
  - apply carries_pairs. vm_compute. now left.
  - split; discriminate.
  - vm_compute. discriminate.
  - cbn [m1_group third] in Hz. rewrite Hz in W. destruct z; [contradiction|discriminate].
Qed.
Print Assumptions C55_own_group_refuted.
