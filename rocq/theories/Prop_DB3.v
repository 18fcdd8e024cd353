(** * Properties C64 and C65: what the output of delta_bohe determines, and what it keeps. *)
From Coq Require Import String List NArith ZArith Bool Arith Lia ZifyN ZifyNat Permutation.
From Verif Require Import PyBase PyStr NBits Bits BB_Model BB_Spec BB_Proofs BB_Read D2Huff_Model D2Huff_Proofs D2Wire_Proofs D2Wire_Frame.
From Verif Require Import D1Huff_Model D1Huff_Proofs Prop_D1Huff D1Wire_Model D1Wire_Proofs D1Wire_Frame Prop_D1Wire Small_Model Bohe_Model Prop_Bohe.
From Verif Require Import DB_Model DB_Proofs DB_Ops DB_Session DB_Wire DB_Text Prop_DB Prop_DB2.
Import ListNotations.
Open Scope Z_scope.
Open Scope py_scope.

(** ** C64: the output and the headers *)

(** A message whose headers are all sent as text, of at most 128 different pairs. *)
Record text_message (L : library) (m : message) (ps : list (str * str)) : Prop := mk_text_message {
  tm_stands : stands L m ps;
  tm_different : NoDup ps;
  tm_octets : octet_pairs ps;
  tm_text : forall p, In p ps -> encoder L (fst p) = None;
  tm_few : (length ps <= 128)%nat }.

Lemma called_group L ord c m c1 i ps : codec_ok c -> ord_ok ord -> pieces L m = Ok ps -> NoDup ps -> make_operations L ord c m = Ok (c1, i) -> incl (group (c_table c1)) ps.
Proof.
  intros W Ho Ep Nd Em. destruct (call_ok L ord c m c1 i W Ho Em) as (W1 & _ & qs & Eq & _ & f & popped & kept & Hf & Hc). assert (qs = ps) by congruence. subst qs. specialize (Hf Nd).
  intros p Hp. apply group_cores in Hp. destruct Hp as (g & Hg). eapply Permutation_in in Hg; [|exact (called_cores _ _ _ _ _ _ _ (proj1 (proj2 W)) (proj1 (proj2 W1)) Hc)].
  apply in_app_iff in Hg. destruct Hg as [Hg|Hg].
  - apply in_map_iff in Hg. destruct Hg as (e & Ee & He). unfold core_as in Ee. assert (E1 : pair_of e = p) by congruence. assert (E2 : f e = Some g) by congruence.
    rewrite Hf in E2. 2:{ destruct (cl_kept _ _ _ _ _ _ _ Hc) as (gone & _ & Eo). unfold entries. rewrite Eo. rewrite !in_app_iff in *. tauto. }
    unfold in_group in E2. destruct (has ps e) eqn:Eh; [|discriminate]. apply has_in in Eh. now rewrite <- E1.
  - apply in_map_iff in Hg. destruct Hg as (q & Eq' & Hq). assert (q = p) by congruence. subst. now apply news_in in Hq.
Qed.
Lemma flat_map_short {A B} (f : A -> list B) l : (forall x, (length (f x) <= 1)%nat) -> (length (flat_map f l) <= length l)%nat.
Proof. intros H. induction l as [|x l IH]; [reflexivity|]. cbn [flat_map length]. rewrite app_length. specialize (H x). lia. Qed.
Lemma instrs_few L ord gen t ps : ord_ok ord -> (length ps <= 128)%nat -> (length (group t) <= 128)%nat -> few (instrs_of L ord gen t ps).
Proof.
  intros Ho Hp Hg. unfold few, instrs_of. cbn [n_toggl n_clone n_kvsto]. rewrite app_length.
  assert (H1 : (length (flat_map (toggl_of t) ps) <= length ps)%nat) by (apply flat_map_short; intros p; unfold toggl_of; destruct (find_entry _ _ _) as [e|]; [destruct (grouped e)|]; cbn; lia).
  assert (H2 : (length (flat_map (clone_of L t) ps) <= length ps)%nat) by (apply flat_map_short; intros p; unfold clone_of; destruct (find_entry _ _ _); [|destruct (key_index _ _)]; cbn; lia).
  assert (H3 : (length (flat_map (kvsto_of L t) ps) <= length ps)%nat) by (apply flat_map_short; intros p; unfold kvsto_of; destruct (find_entry _ _ _); [|destruct (key_index _ _)]; cbn; lia).
  assert (H4 : (length (turn_offs ord gen (each (regen (touched gen ps)) t)) <= length (group t))%nat); [|lia].
  unfold turn_offs. rewrite (Permutation_length (Ho _)), map_length, each_entries. unfold group. rewrite map_length.
  induction (entries t) as [|e l IH]; [reflexivity|]. cbn [map filter]. unfold regen at 1, set_gen at 1. cbn [e_gen]. unfold touched at 1, grouped at 1 2. destruct (e_gen e) as [g|]; cbn [andb].
  - destruct (if has ps e then Some gen else Some g) as [g'|]; [destruct (negb (g' =? gen)%N)|]; cbn [length]; lia.
  - lia.
Qed.
Lemma instrs_strings L ord gen t ps : octet_pairs ps ->
  Forall (fun c => is_bytes (snd (fst c))) (n_clone (instrs_of L ord gen t ps)) /\ Forall (fun c => is_bytes (fst (fst c)) /\ is_bytes (snd (fst c))) (n_kvsto (instrs_of L ord gen t ps)).
Proof.
  intros Hb. split; apply Forall_forall; intros x Hx; cbn [instrs_of n_clone n_kvsto] in Hx; apply in_flat_map in Hx; destruct Hx as ([k v] & Hp & Hx); unfold clone_of, kvsto_of in Hx; cbn [fst snd] in Hx;
    (destruct (find_entry _ _ _); [destruct Hx|]; destruct (key_index _ _); [destruct Hx as [<-|[]] || destruct Hx|destruct Hx as [<-|[]] || destruct Hx]; cbn [fst snd]; now apply (Hb k v)).
Qed.
Lemma instrs_texts L ord gen t ps : (forall p, In p ps -> encoder L (fst p) = None) -> texts (instrs_of L ord gen t ps).
Proof.
  intros Ht. split; apply Forall_forall; intros x Hx; cbn [instrs_of n_clone n_kvsto] in Hx; apply in_flat_map in Hx; destruct Hx as (p & Hp & Hx); unfold clone_of, kvsto_of, huff_of in Hx; rewrite (Ht p Hp) in Hx;
    (destruct (find_entry _ _ _); [destruct Hx|]; destruct (key_index _ _); [destruct Hx as [<-|[]] || destruct Hx|destruct Hx as [<-|[]] || destruct Hx]; reflexivity).
Qed.

(** Two sessions of text messages with the same output, each output below 65536
    octets, are about the same pairs, message by message: whatever the orders of
    iteration, and whatever was thrown away on the way. *)
Theorem C64_text_output_determines_pairs : forall is_request L ord ord' h s ms pss ms' pss' outs,
  processor is_request ord h s -> processor is_request ord' h s ->
  Forall2 (text_message L) ms pss -> Forall2 (text_message L) ms' pss' ->
  snd (run L ord h s ms) = map Ok outs -> snd (run L ord' h s ms') = map Ok outs ->
  (forall o, In o outs -> (lenN o < 65536)%N) ->
  Forall2 (@Permutation (str * str)) pss pss'.
Proof.
  intros is_request L ord ord' h s ms pss ms' pss' outs [Ec (ds & P & En) Ho] [_ _ Ho'] HF HF' E E' Hl.
  destruct (db_new_ok ds P) as (c0 & E0 & F0). assert (s = Some c0) by congruence. subst s.
  destruct (coder_words is_request h Ec) as (ws & G & He).
  assert (Eh : exists table, d1_huffman table = Ok h /\ In 256%N (map fst table)).
  { unfold db_coder in Ec. eexists. split; [exact Ec|]. destruct is_request; apply C50_shipped_tables; [now left|now right]. }
  destruct Eh as (table & Eh & Hin).
  assert (Rec : forall ms pss, Forall2 (text_message L) ms pss -> forall ms' pss' outs c, Forall2 (text_message L) ms' pss' -> codec_ok c -> (length (group (c_table c)) <= 128)%nat ->
    snd (run L ord h (Some c) ms) = map Ok outs -> snd (run L ord' h (Some c) ms') = map Ok outs -> (forall o, In o outs -> (lenN o < 65536)%N) -> Forall2 (@Permutation (str * str)) pss pss').
  { clear - G He Eh Hin Ho Ho'. induction 1 as [|m ps ms pss Hm HF IH]; intros ms' pss' outs c HF' W Hg E E' Hl.
    - cbn [run snd] in E. destruct outs; [|discriminate]. pose proof (f_equal (@length _) E') as El. rewrite run_length in El. destruct ms'; [|discriminate]. inversion HF'. constructor.
    - pose proof (f_equal (@length _) E) as El. pose proof (f_equal (@length _) E') as El'. rewrite run_length, map_length in El, El'. destruct outs as [|o outs]; [discriminate|]. destruct ms' as [|m' ms']; [discriminate|].
      inversion HF' as [|a ps' b pss'' Hm' HF'']. subst. clear HF'. cbn [run] in E, E'. unfold db_compress in E, E'.
      destruct (make_operations L ord c m) as [[c1 i]|] eqn:Em. 2:{ rewrite run_dead in E. discriminate. }
      destruct (make_operations L ord' c m') as [[c1' i']|] eqn:Em'. 2:{ rewrite run_dead in E'. discriminate. }
      destruct (run L ord h (Some c1) ms) as [s2 os] eqn:Er. destruct (run L ord' h (Some c1') ms') as [s2' os'] eqn:Er'. cbn [snd map] in E, E'.
      assert (Eo : real_ops h i = Ok o) by congruence. assert (Eo' : real_ops h i' = Ok o) by congruence. assert (Es : os = map Ok outs) by congruence. assert (Es' : os' = map Ok outs) by congruence. clear E E'.
      destruct (call_ok L ord c m c1 i W Ho Em) as (W1 & _ & qs & Eq & Ei & _). destruct (call_ok L ord' c m' c1' i' W Ho' Em') as (W1' & _ & qs' & Eq' & Ei' & _).
      destruct Hm as [T1 T2 T3 T4 T5]. destruct Hm' as [T1' T2' T3' T4' T5'].
      destruct (stands_pieces L m ps T1) as (rs & Er1 & Pq). assert (rs = qs) by congruence. subst rs. destruct (stands_pieces L m' ps' T1') as (rs & Er2 & Pq'). assert (rs = qs') by congruence. subst rs.
      assert (Nq : NoDup qs) by (eapply Permutation_NoDup; [symmetry; exact Pq|exact T2]). assert (Nq' : NoDup qs') by (eapply Permutation_NoDup; [symmetry; exact Pq'|exact T2']).
      assert (Oq : octet_pairs qs) by (intros k v H; apply T3; eapply Permutation_in; [exact Pq|exact H]). assert (Oq' : octet_pairs qs') by (intros k v H; apply T3'; eapply Permutation_in; [exact Pq'|exact H]).
      assert (Lq : (length qs <= 128)%nat) by (rewrite (Permutation_length Pq); exact T5). assert (Lq' : (length qs' <= 128)%nat) by (rewrite (Permutation_length Pq'); exact T5').
      assert (Sq : texts i) by (rewrite Ei; apply instrs_texts; intros p H; apply T4; eapply Permutation_in; [exact Pq|exact H]).
      assert (Sq' : texts i') by (rewrite Ei'; apply instrs_texts; intros p H; apply T4'; eapply Permutation_in; [exact Pq'|exact H]).
      assert (Fq : few i) by (rewrite Ei; now apply instrs_few). assert (Fq' : few i') by (rewrite Ei'; now apply instrs_few).
      assert (Iq : instrs_ok i). { destruct (instrs_strings L ord (c_gen c) (c_table c) qs Oq) as [H1 H2]. rewrite <- Ei in H1, H2. exact (written_ok h ws G He i o H1 H2 Eo). }
      assert (Iq' : instrs_ok i'). { destruct (instrs_strings L ord' (c_gen c) (c_table c) qs' Oq') as [H1 H2]. rewrite <- Ei' in H1, H2. exact (written_ok h ws G He i' o H1 H2 Eo'). }
      pose proof (text_inj table h i i' Eh Hin Iq Iq' Sq Sq' Fq Fq' o Eo Eo' (Hl o (or_introl eq_refl))) as Same.
      destruct (same_next L ord ord' c m m' qs qs' c1 c1' i i' W Ho Ho' Eq Eq' Nq Nq' Em Em' Same) as (Ec1 & Pqq). subst c1'.
      constructor; [rewrite <- Pq, <- Pq'; exact Pqq|]. eapply (IH ms' pss'' outs c1 HF'' W1); [|now rewrite Er|now rewrite Er'|intros o' H; apply Hl; now right].
      apply Nat.le_trans with (length qs); [|exact Lq]. apply NoDup_incl_length; [apply group_nodup, W1|]. exact (called_group L ord c m c1 i qs W Ho Eq Nq Em). }
  apply (Rec ms pss HF ms' pss' outs c0 HF' (fr_ok _ _ F0)); [|exact E|exact E'|exact Hl].
  assert (Z0 : group (c_table c0) = []); [|rewrite Z0; cbn; lia]. unfold group. pose proof (fr_off _ _ F0) as Off. clear - Off. induction Off as [|e l He _ IH]; [reflexivity|]. cbn [filter]. unfold grouped at 1. rewrite He. exact IH.
Qed.
Print Assumptions C64_text_output_determines_pairs.

(** *** A session and its outputs *)
Definition some_text : message := [(lit "x-own", lit "7"); (lit ":path", lit "/index.html")].
Example C64_example : text_message some_library some_text some_text /\ text_message some_library [] [] /\
  exists h s outs, processor true (fun l => l) h s /\ snd (run some_library (fun l => l) h s [some_text; []; some_text]) = map Ok outs /\
    map (@length N) outs = [30; 14; 14]%nat.
Proof.
  split; [|split; [constructor; try constructor; try contradiction; cbn; lia|]].
  - constructor; [apply pieces_stand; vm_compute; reflexivity| | | |cbn; lia].
    + constructor; [intros [C|[]]; discriminate|constructor; [intros []|constructor]].
    + intros k v [E|[E|[]]]; injection E as <- <-; split; repeat constructor.
    + intros p [<-|[<-|[]]]; reflexivity.
  - set (h := match db_coder true with Ok h => h | Err _ => mk_huffman [] DNone end). set (s := match db_new default_dict with Ok s => s | Err _ => None end).
    exists h, s. set (o := snd (run some_library (fun l => l) h s [some_text; []; some_text])).
    exists (map (fun r => match r with Ok x => x | Err _ => [] end) o). split; [|split; vm_compute; reflexivity].
    constructor; [subst h; destruct (db_coder true) eqn:E; [reflexivity|vm_compute in E; discriminate]| |reflexivity].
    exists default_dict. split; [reflexivity|]. subst s. destruct (db_new default_dict) eqn:E; [reflexivity|vm_compute in E; discriminate].
Qed.

(** *** Binary values are not framed *)
(** A status and a length, each with several numbers (a header that came more than once, joined
    by NUL octets as in the HAR files): the octets of the numbers follow each other, with the
    two octets of a name's index between them, and nothing says where a value ends. *)
Definition dec1 (g : N) : str := if (g <? 10)%N then [48 + g]%N else [48 + g / 10; 48 + g mod 10]%N.
Definition before (g : N) : message := [(lit "content-length", lit "1"); (lit ":status", lit "0" ++ [0]%N ++ dec1 g ++ [0]%N ++ lit "2")].
Definition after (g : N) : message := [(lit "content-length", lit "1" ++ [0]%N ++ lit "0" ++ [0]%N ++ dec1 g); (lit ":status", lit "2")].
Lemma before_pieces L g : (0 < g < 64)%N -> pieces L (before g) = Ok [(lit "content-length", [1]%N); (lit ":status", [0; g; 2]%N)].
Proof.
  intros Hg. assert (H : forallb (fun n => match enc_uvarint (lit "0" ++ [0]%N ++ dec1 n ++ [0]%N ++ lit "2") with Ok s => str_eqb s [0; n; 2]%N | Err _ => false end) (map N.of_nat (seq 1 63)) = true) by (vm_compute; reflexivity).
  rewrite forallb_forall in H. specialize (H g). unfold before. cbn [pieces].
  change (map_res (bohe_encode L (lit "content-length")) (values_of (lit "content-length") (lit "1"))) with (Ok [[1%N]] : res (list str)). cbn [bind].
  change (values_of (lit ":status") (lit "0" ++ [0%N] ++ dec1 g ++ [0%N] ++ lit "2")) with [lit "0" ++ [0%N] ++ dec1 g ++ [0%N] ++ lit "2"]. cbn [map_res].
  change (bohe_encode L (lit ":status")) with enc_uvarint. destruct (enc_uvarint (lit "0" ++ [0%N] ++ dec1 g ++ [0%N] ++ lit "2")) as [x|e].
  - assert (Ex : x = [0; g; 2]%N) by (apply str_eqb_eq, H, in_map_iff; exists (N.to_nat g); split; [lia|apply in_seq; lia]). rewrite Ex. reflexivity.
  - exfalso. assert (C : false = true) by (apply H, in_map_iff; exists (N.to_nat g); split; [lia|apply in_seq; lia]). discriminate.
Qed.
Lemma after_pieces L g : (0 < g < 64)%N -> pieces L (after g) = Ok [(lit "content-length", [1; 0; g]%N); (lit ":status", [2]%N)].
Proof.
  intros Hg. assert (H : forallb (fun n => match enc_uvarint (lit "1" ++ [0]%N ++ lit "0" ++ [0]%N ++ dec1 n) with Ok s => str_eqb s [1; 0; n]%N | Err _ => false end) (map N.of_nat (seq 1 63)) = true) by (vm_compute; reflexivity).
  rewrite forallb_forall in H. specialize (H g). unfold after. cbn [pieces].
  change (values_of (lit "content-length") (lit "1" ++ [0%N] ++ lit "0" ++ [0%N] ++ dec1 g)) with [lit "1" ++ [0%N] ++ lit "0" ++ [0%N] ++ dec1 g]. cbn [map_res].
  change (bohe_encode L (lit "content-length")) with enc_uvarint. destruct (enc_uvarint (lit "1" ++ [0%N] ++ lit "0" ++ [0%N] ++ dec1 g)) as [x|e].
  - assert (Ex : x = [1; 0; g]%N) by (apply str_eqb_eq, H, in_map_iff; exists (N.to_nat g); split; [lia|apply in_seq; lia]). rewrite Ex. reflexivity.
  - exfalso. assert (C : false = true) by (apply H, in_map_iff; exists (N.to_nat g); split; [lia|apply in_seq; lia]). discriminate.
Qed.
Lemma default_absent ds c k v : Permutation ds default_dict -> fresh ds c -> existsb (pair_eqb (k, v)) default_dict = false -> find_entry (c_table c) k v = None.
Proof.
  intros P F H. apply find_entry_none. intros C. rewrite (fr_pairs _ _ F) in C. apply (Permutation_in _ P) in C. assert (D : existsb (pair_eqb (k, v)) default_dict = true) by (apply existsb_exists; exists (k, v); split; [exact C|now apply pair_eqb_eq]). congruence.
Qed.
Lemma default_index ds c k : Permutation ds default_dict -> fresh ds c -> existsb (fun p => str_eqb (fst p) k) default_dict = true -> exists n, key_index (b_keys (c_table c)) k = Some n /\ 0 < n < 64.
Proof.
  intros P F H. apply existsb_exists in H. destruct H as ([k' v] & Hp & E). apply str_eqb_eq in E. cbn [fst] in E. subst k'.
  destruct (fr_ok _ _ F) as (W & _). assert (Hk : In k (map fst (b_keys (c_table c)))).
  { apply (Permutation_in _ (Permutation_sym P)) in Hp. rewrite <- (fr_pairs _ _ F) in Hp. apply in_map_iff in Hp. destruct Hp as (e & Ee & He). pose proof (wf_key _ W) as Wk. rewrite Forall_forall in Wk. specialize (Wk e He). unfold pair_of in Ee. assert (Ek : e_key e = k) by congruence. now rewrite <- Ek. }
  destruct (key_index (b_keys (c_table c)) k) as [n|] eqn:En; [|apply key_index_none in En; contradiction]. exists n. split; [reflexivity|]. apply key_index_in in En. pose proof (wf_klow _ W) as Wl. rewrite Forall_forall in Wl. specialize (Wl _ En). cbn [snd] in Wl.
  rewrite (wf_kn _ W) in Wl. assert (B : (length (map fst (b_keys (c_table c))) <= length (map fst ds))%nat) by (apply NoDup_incl_length; [apply W|exact (fr_names _ _ F)]). rewrite !map_length, (Permutation_length P) in B.
  destruct default_size as (_ & _ & Hd). rewrite Hd in B. lia.
Qed.
Lemma fresh_instrs L ord ds c k v k' v' n n' : Permutation ds default_dict -> ord_ok ord -> fresh ds c -> encoder L k <> None -> encoder L k' <> None ->
  existsb (pair_eqb (k, v)) default_dict = false -> existsb (pair_eqb (k', v')) default_dict = false -> key_index (b_keys (c_table c)) k = Some n -> key_index (b_keys (c_table c)) k' = Some n' ->
  instrs_of L ord (c_gen c) (c_table c) [(k, v); (k', v')] = mk_instrs [] [(n, v, false); (n', v', false)] [].
Proof.
  intros P Ho F He He' Hv Hv' Hn Hn'. pose proof (default_absent ds c k v P F Hv) as F1. pose proof (default_absent ds c k' v' P F Hv') as F2.
  unfold instrs_of. cbn [flat_map]. unfold toggl_of, clone_of, kvsto_of, huff_of. cbn [fst snd]. rewrite F1, F2, Hn, Hn'. cbn [app]. destruct (encoder L k); [|contradiction]. destruct (encoder L k'); [|contradiction].
  assert (T : turn_offs ord (c_gen c) (each (regen (touched (c_gen c) [(k, v); (k', v')])) (c_table c)) = []).
  { destruct (turn_offs ord (c_gen c) _) as [|i l] eqn:E; [reflexivity|]. exfalso. assert (Hi : In i (i :: l)) by now left. rewrite <- E in Hi. apply turn_offs_in in Hi; [|exact Ho|apply aged_stale, (fr_ok _ _ F)].
    destruct Hi as (e & Hin & Hg & _). pose proof (fr_off _ _ F) as Off. rewrite Forall_forall in Off. specialize (Off e Hin). unfold grouped in Hg. rewrite Off in Hg. discriminate. }
  rewrite T. reflexivity.
Qed.
Theorem C64_unframed_values_refuted : forall is_request L ord h s, processor is_request ord h s -> exists m m' ps ps' out,
  stands L m ps /\ stands L m' ps' /\ NoDup ps /\ NoDup ps' /\ ~ Permutation ps ps' /\ map fst m = map fst m' /\
  snd (db_compress L ord h s m) = Ok out /\ snd (db_compress L ord h s m') = Ok out.
Proof.
  intros is_request L ord h s [Ec (ds & P & En) Ho]. destruct (db_new_ok ds P) as (c & E0 & F). assert (s = Some c) by congruence. subst s. destruct (coder_words is_request h Ec) as (ws & G & He).
  destruct (default_index ds c (lit "content-length") P F ltac:(vm_compute; reflexivity)) as (x & Ex & Hx). destruct (default_index ds c (lit ":status") P F ltac:(vm_compute; reflexivity)) as (y & Ey & Hy).
  set (g := Z.to_N y). assert (Hg : (0 < g < 64)%N) by lia. pose proof (before_pieces L g Hg) as B. pose proof (after_pieces L g Hg) as A.
  assert (Nd : forall a b : str, NoDup [(lit "content-length", a); (lit ":status", b)] ) by (intros a b; constructor; [intros [C|[]]; discriminate|constructor; [intros []|constructor]]).
  assert (Calm : calm (Z.of_nat (length (news (c_table c) [(lit "content-length", [1%N]); (lit ":status", [0%N; g; 2%N])]))) (c_table c)) by (left; apply (fr_old _ _ F)).
  assert (Calm' : calm (Z.of_nat (length (news (c_table c) [(lit "content-length", [1%N; 0%N; g]); (lit ":status", [2%N])]))) (c_table c)) by (left; apply (fr_old _ _ F)).
  assert (Hgz : forallb (fun n => negb (existsb (pair_eqb (lit ":status", [0; n; 2]%N)) default_dict) && negb (existsb (pair_eqb (lit "content-length", [1; 0; n]%N)) default_dict)) (map N.of_nat (seq 1 63)) = true) by (vm_compute; reflexivity).
  rewrite forallb_forall in Hgz. specialize (Hgz g ltac:(apply in_map_iff; exists (N.to_nat g); split; [lia|apply in_seq; lia])). apply andb_prop in Hgz. destruct Hgz as [G1 G2]. apply negb_true_iff in G1, G2.
  assert (K1 : existsb (pair_eqb (lit "content-length", [1]%N)) default_dict = false) by (vm_compute; reflexivity). assert (K2 : existsb (pair_eqb (lit ":status", [2]%N)) default_dict = false) by (vm_compute; reflexivity).
  assert (E1 : encoder L (lit "content-length") <> None) by (vm_compute; discriminate). assert (E2 : encoder L (lit ":status") <> None) by (vm_compute; discriminate).
  pose proof (fresh_instrs L ord ds c _ _ _ _ x y P Ho F E1 E2 K1 G1 Ex Ey) as I1. pose proof (fresh_instrs L ord ds c _ _ _ _ x y P Ho F E1 E2 G2 K2 Ex Ey) as I2.
  assert (NoErr : forall qs e, (sized (c_table c) -> forall K, incl (map fst (b_keys (c_table c)) ++ map fst qs) K -> exists p, In p qs /\ max_state_size < total K + slen (snd p)) -> map fst qs = [lit "content-length"; lit ":status"] -> (forall p, In p qs -> slen (snd p) <= 3) -> e = NameError -> False).
  { intros qs e Hb Hm Hs _. destruct (Hb (fr_sized _ _ F) (map fst ds)) as (p & Hp & Hlt).
    - apply incl_app; [exact (fr_names _ _ F)|]. rewrite Hm. intros k Hk. eapply Permutation_in; [apply Permutation_map; symmetry; exact P|]. destruct Hk as [<-|[<-|[]]]; vm_compute; tauto.
    - specialize (Hs p Hp). assert (Et : total (map fst ds) = 664).
      { destruct default_size as (Ed & _). rewrite <- Ed. clear - P. apply (Permutation_map fst) in P. revert P. generalize (map fst ds) (map fst default_dict). intros a b P. induction P; try reflexivity; rewrite ?total_cons; lia. }
      rewrite Et in Hlt. unfold max_state_size in Hlt. lia. }
  destruct (call_calm L ord c (before g) _ (fr_ok _ _ F) Ho B (Nd _ _) Calm) as [[_ Hb]|(c1 & M1 & _)].
  { exfalso. apply (NoErr _ NameError Hb); [reflexivity| |reflexivity]. intros p [<-|[<-|[]]]; vm_compute; discriminate. }
  destruct (call_calm L ord c (after g) _ (fr_ok _ _ F) Ho A (Nd _ _) Calm') as [[_ Hb]|(c2 & M2 & _)].
  { exfalso. apply (NoErr _ NameError Hb); [reflexivity| |reflexivity]. intros p [<-|[<-|[]]]; vm_compute; discriminate. }
  pose proof (eq_trans M1 (f_equal (fun i => Ok (c1, i)) I1)) as M1'. pose proof (eq_trans M2 (f_equal (fun i => Ok (c2, i)) I2)) as M2'. cbv beta in M1', M2'. clear M1 M2.
  assert (W1 : instrs_ok (mk_instrs [] [(x, [1%N], false); (y, [0%N; g; 2%N], false)] [])) by (constructor; cbn [n_toggl n_clone n_kvsto]; repeat constructor; cbn [fst snd]; unfold idx_ok; lia).
  assert (W2 : instrs_ok (mk_instrs [] [(x, [1%N; 0%N; g], false); (y, [2%N], false)] [])) by (constructor; cbn [n_toggl n_clone n_kvsto]; repeat constructor; cbn [fst snd]; unfold idx_ok; lia).
  destruct (real_ops_ok h ws G He _ W1) as (x1 & _ & R1 & Z1). destruct (real_ops_ok h ws G He _ W2) as (x2 & _ & R2 & Z2).
  assert (Eo : payload ws (mk_instrs [] [(x, [1%N], false); (y, [0%N; g; 2%N], false)] []) = payload ws (mk_instrs [] [(x, [1%N; 0%N; g], false); (y, [2%N], false)] [])).
  { unfold payload, kinds. cbn [n_toggl n_clone n_kvsto]. change (toggle_ranges []) with (@nil Z, @nil (Z * Z)). cbn [map flat_map]. unfold kind_oct. cbn [map flat_map fst snd wop_oct str_oct lenN length]. assert (Eg : idx_oct y = [0%N; g]) by (subst g; clear - Hy; assert (T : forallb (fun n => str_eqb (idx_oct (Z.of_nat n)) [0%N; N.of_nat n]) (seq 1 63) = true) by (vm_compute; reflexivity);
      rewrite forallb_forall in T; specialize (T (Z.to_nat y) ltac:(apply in_seq; lia)); apply str_eqb_eq in T; rewrite Z2Nat.id in T by lia; rewrite T; do 2 f_equal; lia).
    rewrite Eg. cbn. reflexivity. }
  assert (Ls : (lenN (payload ws (mk_instrs [] [(x, [1%N], false); (y, [0%N; g; 2%N], false)] [])) <= 65528)%N).
  { unfold payload, kinds. cbn. lia. }
  rewrite Z1 in R1 by exact Ls. rewrite Z2 in R2 by (rewrite <- Eo; exact Ls). rewrite <- Eo in R2.
  exists (before g), (after g). do 3 eexists. split; [apply pieces_stand, B|]. split; [apply pieces_stand, A|]. split; [apply Nd|]. split; [apply Nd|]. split.
  { intros C. assert (Hc : In (lit "content-length", [1%N]) [(lit "content-length", [1%N; 0%N; g]); (lit ":status", [2%N])]) by (eapply Permutation_in; [exact C|now left]). destruct Hc as [D|[D|[]]]; discriminate D. }
  split; [reflexivity|]. unfold db_compress. rewrite M1', M2'. cbn [snd]. split; [exact R1|exact R2].
Qed.
Print Assumptions C64_unframed_values_refuted.

(** ** C65: how much is kept *)

Lemma insert_val_num refs gen t k v t' : wf t -> insert_val refs gen t k v = Ok t' ->
  b_num t' <= Z.max (b_num t) (Z.max 1024 (Z.of_nat (length (b_def t)) + Z.of_nat (length (b_new t')))).
Proof.
  intros W E. unfold insert_val in E. destruct (add_key refs t k) as [t1|] eqn:Ea; [|discriminate]. cbn [bind] in E.
  destruct (add_key_ok refs t k t1 W Ea) as (W1 & _ & Ed & En & _ & _ & _ & popped & _ & Hn).
  destruct (find_entry t1 k v); [discriminate|]. destruct (make_space (k :: refs) t1 (slen v) 1) as [t2|] eqn:Em; [|discriminate]. cbn [bind] in E. cbv zeta in E.
  match type of E with Ok ?x = Ok _ => assert (t' = x) by congruence; subst t' end. cbn [b_num b_new]. rewrite app_length. cbn [length].
  pose proof (make_space_ok _ _ _ _ _ Em) as Sh. unfold make_space in Em. rewrite (sh_new _ _ Sh), En.
  destruct (max_vals <? b_num t1 + 1) eqn:El.
  - destruct (pop_one_ok _ _ _ Em) as [_ [[Eo ->]|(e & _ & En2 & _)]].
    + pose proof (wf_num _ W1) as Wn. unfold entries in Wn. rewrite Eo in Wn. rewrite !app_length in Wn. cbn [length] in Wn. rewrite Ed, En in Wn. lia.
    + lia.
  - apply Z.ltb_ge in El. unfold max_vals in El. destruct (max_state_size <? b_size t1 + slen v); [discriminate|]. assert (t2 = t1) by congruence. subst. lia.
Qed.
Lemma insert_all_num refs gen : forall ps t t', wf t -> insert_all refs gen t ps = Ok t' ->
  b_num t' <= Z.max (b_num t) (Z.max 1024 (Z.of_nat (length (b_def t)) + Z.of_nat (length (b_new t')))).
Proof.
  induction ps as [|[k v] ps IH]; intros t t' W E; cbn [insert_all] in E; [assert (t' = t) by congruence; subst; lia|].
  destruct (insert_val refs gen t k v) as [t1|] eqn:E1; [|discriminate]. cbn [bind] in E. pose proof (insert_val_num _ _ _ _ _ _ W E1) as N1. destruct (insert_val_ok _ _ _ _ _ _ W E1) as [W1 D1 _ _ _ _].
  pose proof (IH t1 t' W1 E) as N2. destruct (insert_all_ok _ _ _ _ _ W1 E) as [_ _ _ _ _ (es & Ee & _)]. rewrite D1 in N2. rewrite Ee in *. rewrite app_length in *. lia.
Qed.
Lemma filter_short {A} (f : A -> bool) l : (length (filter f l) <= length l)%nat.
Proof. induction l as [|x l IH]; [reflexivity|]. cbn [filter]. destruct (f x); cbn [length]; lia. Qed.
Lemma news_short t ps : (length (news t ps) <= length ps)%nat.
Proof.
  unfold news. rewrite app_length. induction ps as [|p ps IH]; [reflexivity|]. cbn [filter]. unfold is_clone at 1, is_kvsto at 1. destruct (find_entry t (fst p) (snd p)); [cbn [length]; lia|]. destruct (key_index (b_keys t) (fst p)); cbn [length]; lia.
Qed.
Lemma call_num L ord c m c1 i ps : codec_ok c -> ord_ok ord -> pieces L m = Ok ps -> make_operations L ord c m = Ok (c1, i) ->
  b_num (c_table c1) <= Z.max (b_num (c_table c)) (Z.max 1024 (Z.of_nat (length (b_def (c_table c))) + Z.of_nat (length ps))) /\
  length (b_def (c_table c1)) = length (b_def (c_table c)).
Proof.
  intros W Ho Ep Em. destruct (call_ok L ord c m c1 i W Ho Em) as (_ & _ & rs & _ & _ & f' & po & ke & _ & Hc). split.
  2:{ pose proof (cl_def _ _ _ _ _ _ _ Hc) as D. apply (f_equal (@length _)) in D. now rewrite !map_length in D. }
  destruct (make_operations_ok L ord c m ps W Ho Ep) as (f & _ & _ & E). rewrite Em in E.
  destruct (insert_all _ _ _ _) as [t2|] eqn:Ei in E; [|discriminate]. cbn [bind] in E. assert (c1 = mk_codec (adjust (unpin t2)) (c_gen c + 1)%N) by congruence. subst c1. cbn [c_table].
  destruct W as (W & Hn & _). pose proof (insert_all_num _ _ _ _ _ (regen_wf f _ W) Ei) as N. pose proof (insert_all_ok _ _ _ _ _ (regen_wf f _ W) Ei) as I.
  destruct (adjust_ok (unpin t2) (unpin_wf t2 (in_wf _ _ _ _ I)) eq_refl) as (Ad & _). rewrite (ad_num _ _ Ad). cbn [unpin b_num].
  destruct (in_new _ _ _ _ I) as (es & Ee & Es & _). cbn [each b_new b_num b_def] in *. rewrite Hn in Ee. cbn [map app] in Ee. rewrite map_length in N. apply (f_equal (@length _)) in Es. rewrite map_length in Es. rewrite Ee, Es in N.
  pose proof (news_short (c_table c) ps). lia.
Qed.
(** The number of pairs kept: at most 1024, or the defaults and the largest message. *)
Theorem C65_pairs_kept : forall is_request L ord h s ms pss c n, processor is_request ord h s -> Forall2 (stands L) ms pss ->
  fst (run L ord h s ms) = Some c -> (forall ps, In ps pss -> Z.of_nat (length ps) <= n) ->
  NoDup (held c) /\ Z.of_nat (length (held c)) <= Z.max 1024 (63 + n).
Proof.
  intros is_request L ord h s ms pss c n [Ec (ds & P & En) Ho] HF Er Hn. destruct (db_new_ok ds P) as (c0 & E0 & F0). assert (s = Some c0) by congruence. subst s.
  assert (Rec : forall ms pss, Forall2 (stands L) ms pss -> (forall ps, In ps pss -> Z.of_nat (length ps) <= n) -> forall c0, codec_ok c0 -> length (b_def (c_table c0)) = 63%nat ->
    b_num (c_table c0) <= Z.max 1024 (63 + n) -> fst (run L ord h (Some c0) ms) = Some c -> codec_ok c /\ b_num (c_table c) <= Z.max 1024 (63 + n)).
  { clear - Ho. induction 1 as [|m ps ms pss Hm HF IH]; intros Hn c0 W Hd Hb Er.
    - cbn in Er. assert (c = c0) by congruence. subst. now split.
    - cbn [run] in Er. unfold db_compress in Er. destruct (make_operations L ord c0 m) as [[c1 i]|] eqn:Em; [|rewrite run_dead in Er; discriminate].
      destruct (run L ord h (Some c1) ms) as [s2 os] eqn:Es. cbn [fst] in Er. destruct (stands_pieces L m ps Hm) as (qs & Eq & Pq).
      destruct (call_num L ord c0 m c1 i qs W Ho Eq Em) as [N1 D1]. destruct (call_ok L ord c0 m c1 i W Ho Em) as (W1 & _).
      pose proof (Hn ps (or_introl eq_refl)) as Hp. rewrite <- (Permutation_length Pq) in Hp.
      apply (IH (fun q Hq => Hn q (or_intror Hq)) c1 W1); [now rewrite D1| |now rewrite Es]. rewrite Hd in N1. lia. }
  destruct (Rec ms pss HF Hn c0 (fr_ok _ _ F0)) as [W Hb].
  - pose proof (fr_pairs _ _ F0) as E. apply (f_equal (@length _)) in E. rewrite map_length in E. unfold entries in E. rewrite (fr_old _ _ F0), (proj1 (proj2 (fr_ok _ _ F0))), !app_nil_r, (Permutation_length P) in E. destruct default_size as (_ & _ & Hd). congruence.
  - rewrite (wf_num _ (proj1 (fr_ok _ _ F0))). pose proof (fr_pairs _ _ F0) as E. apply (f_equal (@length _)) in E. rewrite map_length, (Permutation_length P) in E. destruct default_size as (_ & _ & Hd). rewrite Hd in E. lia.
  - exact Er.
  - split; [apply W|]. unfold held. rewrite map_length. rewrite (wf_num _ (proj1 W)) in Hb. exact Hb.
Qed.
Print Assumptions C65_pairs_kept.

(** The limit of 65536 octets: values are not counted. *)
Definition octets_of (ps : list (str * str)) : Z := fold_right (fun p n => slen (fst p) + slen (snd p) + n) 0 ps.
Definition long_text (c : N) : str := repeat c (N.to_nat 60000).
Definition long_pairs : list (str * str) := [(lit "x-a", long_text 97); (lit "x-b", long_text 98)].
Lemma long_len c : slen (long_text c) = 60000. Proof. unfold slen, long_text. rewrite repeat_length. lia. Qed.
Lemma octets_of_nonneg ps : 0 <= octets_of ps. Proof. induction ps as [|p ps IH]; [reflexivity|]. cbn [octets_of fold_right]. fold (octets_of ps). pose proof (slen_nonneg (fst p)). pose proof (slen_nonneg (snd p)). lia. Qed.
Lemma octets_of_in p ps : In p ps -> slen (fst p) + slen (snd p) <= octets_of ps.
Proof.
  induction ps as [|q ps IH]; [contradiction|]. intros Hin. cbn [octets_of fold_right]. fold (octets_of ps). pose proof (slen_nonneg (fst q)). pose proof (slen_nonneg (snd q)). pose proof (octets_of_nonneg ps). destruct Hin as [->|Hin]; [lia|]. specialize (IH Hin). lia.
Qed.
Lemma octets_of_two p q ps : In p ps -> In q ps -> p <> q -> slen (snd p) + slen (snd q) <= octets_of ps.
Proof.
  induction ps as [|r ps IH]; [contradiction|]. intros Hp Hq Hne. cbn [octets_of fold_right]. fold (octets_of ps). pose proof (slen_nonneg (fst r)). pose proof (slen_nonneg (snd r)). pose proof (slen_nonneg (fst p)). pose proof (slen_nonneg (fst q)).
  destruct Hp as [->|Hp], Hq as [->|Hq]; [contradiction|apply octets_of_in in Hq; lia|apply octets_of_in in Hp; lia|]. specialize (IH Hp Hq Hne). lia.
Qed.
Theorem C65_octet_limit_refuted : forall is_request L ord h s, processor is_request ord h s ->
  encoder L (lit "x-a") = None /\ exists c, fst (run L ord h s [[(lit "x-a", long_text 97)]; [(lit "x-b", long_text 98)]]) = Some c /\ 65536 < octets_of (held c).
Proof.
  intros is_request L ord h s [Ec (ds & P & En) Ho]. split; [reflexivity|]. destruct (db_new_ok ds P) as (c0 & E0 & F0). assert (s = Some c0) by congruence. subst s.
  assert (R : roomy long_pairs).
  { apply roomy_bound; [cbn; lia|]. intros p [<-|[<-|[]]]; cbn [snd]; rewrite long_len; change (total (map fst long_pairs)) with 6; lia. }
  assert (Hs : forall k v, k <> lit "cookie" -> encoder L k = None -> stands L [(k, v)] [(k, v)]).
  { intros k v Hk He. apply pieces_stand. cbn [pieces]. unfold values_of, bohe_encode. destruct (str_eqb k (lit "cookie")) eqn:E; [apply str_eqb_eq in E; contradiction|]. cbn [map_res]. rewrite He. reflexivity. }
  assert (Hne : (lit "x-a", long_text 97) <> (lit "x-b", long_text 98)) by (intros C; apply (f_equal fst) in C; discriminate C).
  destruct (run_small L ord h ds long_pairs P R Ho [[(lit "x-a", long_text 97)]; [(lit "x-b", long_text 98)]] [[(lit "x-a", long_text 97)]; [(lit "x-b", long_text 98)]]) with (c := c0) as (c & Er & _ & _ & _ & Hh).
  - constructor; [|constructor; [|constructor]]; (split; [apply Hs; [discriminate|reflexivity]|split; [constructor; [intros []|constructor]|]]).
    + intros p [<-|[]]. now left.
    + intros p [<-|[]]. right. now left.
  - now apply fresh_small.
  - exists c. split; [exact Er|]. pose proof (octets_of_two (lit "x-a", long_text 97) (lit "x-b", long_text 98) (held c)) as H. cbn [snd] in H. rewrite !long_len in H.
    enough (60000 + 60000 <= octets_of (held c)) by lia. apply H; [apply Hh; right; cbn [concat app]; now left|apply Hh; right; cbn [concat app]; right; now left|exact Hne].
Qed.
Print Assumptions C65_octet_limit_refuted.
Example C65_example : Z.max 1024 (63 + 2) = 1024 /\ exists h s c, processor true (fun l => l) h s /\ fst (run some_library (fun l => l) h s [some_text; []]) = Some c /\ length (held c) = 65%nat.
Proof.
  split; [reflexivity|]. destruct some_processor as (h & _ & _). destruct C51_nontrivial as [(h' & Eh) _]. destruct (db_new default_dict) as [s|] eqn:Es; [|vm_compute in Es; discriminate].
  exists h', s. unfold run, db_compress, some_text. vm_compute in Es. match type of Es with Ok ?x = Ok _ => assert (s = x) by congruence; subst s end.
  do 2 (match goal with |- context [make_operations ?a ?b ?c ?d] => let v := eval vm_compute in (make_operations a b c d) in change (make_operations a b c d) with v; cbv beta iota end).
  eexists. split; [|split; [reflexivity|vm_compute; reflexivity]]. constructor; [exact Eh| |reflexivity]. exists default_dict. split; [reflexivity|]. vm_compute. reflexivity.
Qed.
