(** * Properties C60-C63: sessions of the delta_bohe processor. *)
From Coq Require Import String List NArith ZArith Bool Arith Lia ZifyN ZifyNat Permutation.
From Verif Require Import PyBase PyStr NBits Bits BB_Model BB_Spec BB_Proofs BB_Read D2Huff_Model D2Huff_Proofs D2Wire_Proofs D2Wire_Frame.
From Verif Require Import D1Huff_Model D1Huff_Proofs Prop_D1Huff D1Wire_Model D1Wire_Proofs D1Wire_Frame Prop_D1Wire Small_Model Bohe_Model Prop_Bohe.
From Verif Require Import DB_Model DB_Proofs DB_Ops DB_Session DB_Wire DB_Text.
Import ListNotations.
Open Scope Z_scope.
Open Scope py_scope.

(** ** What is said about *)

(** A message is a dictionary of headers in the order in which it is iterated. *)
Definition message := list (str * str).
(** A cookie counts as its crumbs, without the blanks before them; every other header
    has one value. *)
Definition parts (k v : str) : list str := if str_eqb k (lit "cookie") then map (lstrip is_blank) (split_on 59 v) else [v].
(** The pairs of a name and a value, encoded, that a message stands for, in some order. *)
Inductive stands (L : library) : message -> list (str * str) -> Prop :=
| stands_nil : stands L [] []
| stands_cons k v vs ws m ps : Permutation vs (parts k v) -> Forall2 (fun x w => encoded L k x = Ok w) vs ws -> stands L m ps ->
    stands L ((k, v) :: m) (map (pair k) ws ++ ps).
(** Different pairs, all of them among [U]. *)
Definition plain_message (L : library) (U : list (str * str)) (m : message) (ps : list (str * str)) : Prop :=
  stands L m ps /\ NoDup ps /\ incl ps U.

(** Messages one after another: what is left and what each call returned. *)
Fixpoint run (L : library) (ord : list Z -> list Z) (h : huffman) (s : state) (ms : list message) : state * list (res str) :=
  match ms with
  | [] => (s, [])
  | m :: r => let (s1, o) := db_compress L ord h s m in let (s2, os) := run L ord h s1 r in (s2, o :: os)
  end.
Definition octet_pairs (U : list (str * str)) : Prop := forall k v, In (k, v) U -> is_bytes k /\ is_bytes v.
Definition pairs_in (pss : list (list (str * str))) : Z := Z.of_nat (length (concat pss)).

(** A new processor: the coder it is given, the defaults in some order, the orders in
    which its group is iterated. *)
Record processor (is_request : bool) (ord : list Z -> list Z) (h : huffman) (s : state) : Prop := mk_processor {
  pr_coder : db_coder is_request = Ok h;
  pr_new : exists ds, Permutation ds default_dict /\ db_new ds = Ok s;
  pr_order : forall l, Permutation (ord l) l }.

(** ** The specification and the model's own list *)

Lemma sort_s_perm l : Permutation (sort_s l) l.
Proof.
  induction l as [|x l IH]; [constructor|]. cbn [sort_s fold_right]. fold (sort_s l). transitivity (x :: sort_s l); [|now constructor].
  generalize (sort_s l). induction l0 as [|y r IH']; [reflexivity|]. cbn [insert_s]. destruct (str_leb x y); [reflexivity|]. transitivity (y :: x :: r); [now constructor|constructor].
Qed.
Lemma values_parts k v : Permutation (values_of k v) (parts k v).
Proof. unfold values_of, parts, crumbs. destruct (str_eqb k _); [apply sort_s_perm|reflexivity]. Qed.
Lemma map_res_all {A B} (f : A -> res B) (g : A -> B) l : (forall x, In x l -> f x = Ok (g x)) -> map_res f l = Ok (map g l).
Proof.
  induction l as [|a l IH]; intros H; [reflexivity|]. cbn [map_res map]. rewrite (H a (or_introl eq_refl)). cbn [bind]. rewrite IH; [reflexivity|]. intros x Hx. apply H. now right.
Qed.
Lemma stands_pieces L m ps : stands L m ps -> exists qs, pieces L m = Ok qs /\ Permutation qs ps.
Proof.
  induction 1 as [|k v vs ws m ps Hp HF _ (qs & Eq & Pq)]; [now exists []|]. cbn [pieces].
  set (g := fun x => match encoded L k x with Ok w => w | Err _ => [] end).
  assert (Hg : forall x, In x vs -> encoded L k x = Ok (g x)).
  { intros x Hx. unfold g. clear - HF Hx. induction HF as [|y w vs ws Hy HF IH]; [contradiction|]. destruct Hx as [->|Hx]; [now rewrite Hy|now apply IH]. }
  assert (Ew : ws = map g vs).
  { clear - HF. unfold g. induction HF as [|y w vs ws Hy HF IH]; [reflexivity|]. cbn [map]. now rewrite Hy, IH. }
  assert (Pv : Permutation (values_of k v) vs) by (rewrite Hp; apply values_parts).
  rewrite (map_res_all _ g). 2:{ intros x Hx. apply Hg. eapply Permutation_in; [exact Pv|exact Hx]. }
  cbn [bind]. rewrite Eq. cbn [bind]. eexists. split; [reflexivity|]. subst ws. apply Permutation_app; [|exact Pq]. now apply Permutation_map, Permutation_map.
Qed.
Lemma pieces_stand L m : forall qs, pieces L m = Ok qs -> stands L m qs.
Proof.
  induction m as [|[k v] m IH]; intros qs E; cbn [pieces] in E; [assert (qs = []) by congruence; subst; constructor|].
  destruct (map_res (bohe_encode L k) (values_of k v)) as [ws|] eqn:Ew; [|discriminate]. cbn [bind] in E. destruct (pieces L m) as [ps|]; [|discriminate]. cbn [bind] in E.
  assert (qs = map (pair k) ws ++ ps) by congruence. subst qs. apply (stands_cons L k v (values_of k v) ws); [apply values_parts| |now apply IH].
  clear - Ew. revert ws Ew. induction (values_of k v) as [|x l IH]; intros ws E; cbn [map_res] in E; [assert (ws = []) by congruence; subst; constructor|].
  destruct (bohe_encode L k x) as [w|] eqn:Ex; [|discriminate]. cbn [bind] in E. destruct (map_res (bohe_encode L k) l) as [r|]; [|discriminate]. cbn [bind] in E.
  assert (ws = w :: r) by congruence. subst. constructor; [exact Ex|now apply IH].
Qed.
Lemma plain_pieces L U m ps : plain_message L U m ps -> exists qs, pieces L m = Ok qs /\ NoDup qs /\ incl qs U /\ Permutation qs ps.
Proof.
  intros (Hs & Hn & Hi). destruct (stands_pieces L m ps Hs) as (qs & Eq & P). exists qs. split; [exact Eq|]. split; [eapply Permutation_NoDup; [symmetry; exact P|exact Hn]|]. split; [|exact P].
  intros p Hp. apply Hi. eapply Permutation_in; [exact P|exact Hp].
Qed.

Lemma coder_words is_request h : db_coder is_request = Ok h -> exists ws, good h ws /\ (256 < lenN ws)%N.
Proof.
  intros E. unfold db_coder in E. eapply coder_good; [exact E|]. destruct is_request; apply C50_shipped_tables; [now left|now right].
Qed.

(** Everything fits as long as the numbers do. *)
Lemma instrs_fit L ord c ps : codec_ok c -> ord_ok ord -> octet_pairs ps -> b_nlru (c_table c) < 65536 -> b_nkey (c_table c) < 65536 ->
  instrs_ok (instrs_of L ord (c_gen c) (c_table c) ps).
Proof.
  intros (W & Hn & Ha) Ho Hb Hl Hk. pose proof (wf_low _ W) as Low. pose proof (wf_klow _ W) as KLow. rewrite Forall_forall in Low, KLow.
  constructor; cbn [instrs_of n_toggl n_clone n_kvsto]; apply Forall_forall.
  - intros i Hi. apply in_app_iff in Hi. destruct Hi as [Hi|Hi].
    + apply toggl_in in Hi; [|exact W]. destruct Hi as (e & He & _ & _ & <-). specialize (Low e He). cbn beta in Low. unfold idx_ok. lia.
    + apply turn_offs_in in Hi; [|exact Ho|now apply aged_stale]. destruct Hi as (e & He & _ & _ & <-). specialize (Low e He). cbn beta in Low. unfold idx_ok. lia.
  - intros x Hx. apply in_flat_map in Hx. destruct Hx as ([k v] & Hp & Hx). unfold clone_of in Hx. cbn [fst snd] in Hx. destruct (find_entry (c_table c) k v); [destruct Hx|].
    destruct (key_index (b_keys (c_table c)) k) as [n|] eqn:E; [|destruct Hx]. destruct Hx as [<-|[]]. cbn [fst snd]. apply key_index_in in E. specialize (KLow _ E). cbn [snd] in KLow.
    split; [unfold idx_ok; lia|now apply (Hb k v)].
  - intros x Hx. apply in_flat_map in Hx. destruct Hx as ([k v] & Hp & Hx). unfold kvsto_of in Hx. cbn [fst snd] in Hx. destruct (find_entry (c_table c) k v); [destruct Hx|].
    destruct (key_index (b_keys (c_table c)) k) as [n|] eqn:E; [destruct Hx|]. destruct Hx as [<-|[]]. cbn [fst snd]. now apply (Hb k v).
Qed.
Lemma small_nkey ds U c : Permutation ds default_dict -> roomy U -> small ds U c -> b_nkey (c_table c) <= 1024.
Proof.
  intros P [Rn _] [(W & _) _ _ Hnm]. rewrite (wf_kn _ W).
  assert (B : (length (map fst (b_keys (c_table c))) <= length (map fst (ds ++ U)))%nat) by (apply NoDup_incl_length; [apply W|exact Hnm]).
  rewrite !map_length, app_length, (Permutation_length P) in B. destruct default_size as (_ & _ & Hl). rewrite Hl in B. lia.
Qed.
Lemma small_num ds U c : Permutation ds default_dict -> small ds U c -> b_num (c_table c) <= 63 + Z.of_nat (length U).
Proof.
  intros P [(W & _) Hin _ _]. rewrite (wf_num _ W).
  assert (B : (length (map pair_of (entries (c_table c))) <= length (ds ++ U))%nat) by (apply NoDup_incl_length; [apply W|exact Hin]).
  rewrite map_length, app_length, (Permutation_length P) in B. destruct default_size as (_ & _ & Hl). rewrite Hl in B. lia.
Qed.

(** The pairs in the tables. *)
Definition held (c : codec) : list (str * str) := map pair_of (entries (c_table c)).

(** One call in a session where nothing is thrown away. *)
Lemma one_call L ord h ds U c m ps : Permutation ds default_dict -> roomy U -> small ds U c -> ord_ok ord -> plain_message L U m ps ->
  exists c' qs, Permutation qs ps /\ NoDup qs /\ incl qs U /\ db_compress L ord h (Some c) m = (Some c', real_ops h (instrs_of L ord (c_gen c) (c_table c) qs)) /\ small ds U c' /\
    (forall p, In p (group (c_table c')) <-> In p ps) /\
    b_nlru (c_table c') - b_num (c_table c') = b_nlru (c_table c) - b_num (c_table c) + Z.of_nat (length ps) /\
    b_num (c_table c) <= b_num (c_table c') /\
    Forall (fun e => grouped e = true -> b_nlru (c_table c) < e_idx e) (entries (c_table c')) /\
    (forall p, In p (held c) \/ In p ps -> In p (held c')).
Proof.
  intros P R S Ho Hm. destruct (plain_pieces L U m ps Hm) as (qs & Eq & Hnd & Hi & Pq).
  destruct (small_call L ord ds U c m qs P R S Ho Eq Hnd Hi) as (c' & Em & S' & Eg & Pc & Pg & En & Fl).
  exists c', qs. split; [exact Pq|]. split; [exact Hnd|]. split; [exact Hi|]. split; [unfold db_compress; now rewrite Em|]. split; [exact S'|]. split.
  { intros p. split; intros H.
    - eapply Permutation_in; [exact Pq|]. eapply Permutation_in; [exact Pg|exact H].
    - eapply Permutation_in; [symmetry; exact Pg|]. eapply Permutation_in; [symmetry; exact Pq|exact H]. }
  pose proof (wf_num _ (proj1 (sm_ok _ _ _ S))) as N1. pose proof (wf_num _ (proj1 (sm_ok _ _ _ S'))) as N2. pose proof Pc as Pc'. pose proof Pq as Pq'. apply Permutation_length in Pc. rewrite app_length, !map_length in Pc. apply Permutation_length in Pq.
  split; [lia|]. split; [lia|]. split; [eapply Forall_impl, Fl; intros e He G; specialize (He G); lia|].
  intros p [Hp|Hp].
  - unfold held in *. apply in_map_iff in Hp. destruct Hp as (e & <- & He).
    assert (Hc : In (core_as (in_group (c_gen c) qs) e) (map core (entries (c_table c')))).
    { eapply Permutation_in; [symmetry; exact Pc'|]. apply in_app_iff. left. now apply in_map. }
    apply in_map_iff in Hc. destruct Hc as (e' & Ee & He'). apply in_map_iff. exists e'. split; [|exact He']. apply (f_equal fst) in Ee. exact Ee.
  - assert (Hg : In p (group (c_table c'))) by (eapply Permutation_in; [symmetry; exact Pg|]; eapply Permutation_in; [symmetry; exact Pq'|exact Hp]).
    unfold group in Hg. apply in_map_iff in Hg. destruct Hg as (e & <- & He). apply filter_In in He. unfold held. now apply in_map.
Qed.
Lemma pairs_in_cons ps pss : pairs_in (ps :: pss) = Z.of_nat (length ps) + pairs_in pss.
Proof. unfold pairs_in. cbn [concat]. rewrite app_length. lia. Qed.
Lemma run_app L ord h : forall ms s ms', run L ord h s (ms ++ ms') = let (s1, o1) := run L ord h s ms in let (s2, o2) := run L ord h s1 ms' in (s2, o1 ++ o2).
Proof.
  induction ms as [|m ms IH]; intros s ms'; cbn [app run]; [now destruct (run L ord h s ms')|]. destruct (db_compress L ord h s m) as [s1 o]. rewrite IH.
  destruct (run L ord h s1 ms) as [s2 o1]. now destruct (run L ord h s2 ms').
Qed.
Lemma run_length L ord h : forall ms s, length (snd (run L ord h s ms)) = length ms.
Proof.
  induction ms as [|m ms IH]; intros s; [reflexivity|]. cbn [run]. destruct (db_compress L ord h s m) as [s1 o]. specialize (IH s1). destruct (run L ord h s1 ms). cbn [snd length] in *. now rewrite IH.
Qed.
Lemma run_small L ord h ds U : Permutation ds default_dict -> roomy U -> ord_ok ord -> forall ms pss, Forall2 (plain_message L U) ms pss -> forall c, small ds U c ->
  exists c', fst (run L ord h (Some c) ms) = Some c' /\ small ds U c' /\
    b_nlru (c_table c') - b_num (c_table c') = b_nlru (c_table c) - b_num (c_table c) + pairs_in pss /\ b_num (c_table c) <= b_num (c_table c') /\
    (forall p, In p (held c) \/ In p (concat pss) -> In p (held c')).
Proof.
  intros P R Ho. induction 1 as [|m ps ms pss Hm HF IH]; intros c S.
  - exists c. split; [reflexivity|]. split; [exact S|]. change (pairs_in []) with 0. split; [lia|]. split; [lia|]. now intros p [H|[]].
  - destruct (one_call L ord h ds U c m ps P R S Ho Hm) as (c1 & qs & _ & _ & _ & Ec & S1 & _ & En & Em & _ & Hh). destruct (IH c1 S1) as (c' & Er & S' & En' & Em' & Hh').
    exists c'. cbn [run]. rewrite Ec. destruct (run L ord h (Some c1) ms) as [s2 os]. cbn [fst] in *. split; [exact Er|]. split; [exact S'|]. rewrite pairs_in_cons. split; [lia|]. split; [lia|]. intros p Hp. apply Hh'. cbn [concat] in Hp. rewrite in_app_iff in Hp. destruct Hp as [Hp|[Hp|Hp]]; [left|left|right]; auto.
Qed.

(** ** C60: the same message again *)

(** Eight octets, the head of a frame without content. *)
Definition nothing_new : str := [0; 0; 1; 128; 0; 4; 210; 8]%N.
Lemma real_ops_empty is_request h : db_coder is_request = Ok h -> real_ops h (mk_instrs [] [] []) = Ok nothing_new.
Proof.
  intros E. destruct (coder_words is_request h E) as (ws & G & He). destruct (real_ops_ok h ws G He (mk_instrs [] [] [])) as (x & _ & -> & Hx); [constructor; constructor|].
  rewrite Hx by (cbn; lia). reflexivity.
Qed.
Theorem C60_repeated_message : forall is_request L ord h s U ms pss m ps n, processor is_request ord h s -> roomy U ->
  Forall2 (plain_message L U) ms pss -> plain_message L U m ps ->
  exists o, snd (run L ord h (fst (run L ord h s ms)) (m :: repeat m n)) = o :: repeat (Ok nothing_new) n.
Proof.
  intros is_request L ord h s U ms pss m ps n [Ec (ds & P & En) Ho] R HF Hm. destruct (db_new_ok ds P) as (c0 & E0 & F0). assert (s = Some c0) by congruence. subst s.
  destruct (run_small L ord h ds U P R Ho ms pss HF c0 (fresh_small ds U c0 F0)) as (c1 & E1 & S1 & _). rewrite E1.
  destruct (one_call L ord h ds U c1 m ps P R S1 Ho Hm) as (c2 & qs & _ & _ & _ & E2 & S2 & G2 & _). cbn [run]. rewrite E2.
  assert (Rep : forall k c, small ds U c -> (forall p, In p (group (c_table c)) <-> In p ps) -> snd (run L ord h (Some c) (repeat m k)) = repeat (Ok nothing_new) k).
  { clear n. induction k as [|k IH]; intros c S G; [reflexivity|]. cbn [repeat run]. destruct (one_call L ord h ds U c m ps P R S Ho Hm) as (c' & rs & Pr & _ & _ & E' & S' & G' & _). rewrite E'.
    specialize (IH c' S' G'). destruct (run L ord h (Some c') (repeat m k)) as [s2 os]. cbn [snd] in *. rewrite IH. f_equal.
    destruct (sm_ok _ _ _ S) as (W & _ & Ha). rewrite (instrs_same L ord (c_gen c) (c_table c) rs W Ho Ha).
    - apply (real_ops_empty is_request h Ec).
    - intros p. rewrite G. split; intros H; eapply Permutation_in; try exact H; [exact Pr|now symmetry]. }
  specialize (Rep n c2 S2 G2). destruct (run L ord h (Some c2) (repeat m n)) as [s3 os]. cbn [snd] in *. rewrite Rep. eauto.
Qed.
Print Assumptions C60_repeated_message.

(** ** C61: when nothing is raised *)

Theorem C61_small_sessions : forall is_request L ord h s U ms pss, processor is_request ord h s -> roomy U -> octet_pairs U ->
  Forall2 (plain_message L U) ms pss -> 63 + Z.of_nat (length U) + pairs_in pss < 65536 ->
  exists outs, snd (run L ord h s ms) = map Ok outs.
Proof.
  intros is_request L ord h s U ms pss [Ec (ds & P & En) Ho] R Hb HF Hl. destruct (coder_words is_request h Ec) as (ws & G & He).
  destruct (db_new_ok ds P) as (c0 & E0 & F0). assert (s = Some c0) by congruence. subst s.
  assert (Rec : forall ms pss, Forall2 (plain_message L U) ms pss -> forall c, small ds U c -> b_nlru (c_table c) - b_num (c_table c) + 63 + Z.of_nat (length U) + pairs_in pss < 65536 ->
    exists outs, snd (run L ord h (Some c) ms) = map Ok outs).
  { clear ms pss HF Hl. induction 1 as [|m ps ms pss Hm HF IH]; intros c S Hl; [now exists []|].
    destruct (one_call L ord h ds U c m ps P R S Ho Hm) as (c1 & qs & Pq & Hnd & Hi & E1 & S1 & _ & En1 & _). rewrite pairs_in_cons in Hl.
    destruct (IH c1 S1 ltac:(lia)) as (outs & Eo). cbn [run]. rewrite E1. destruct (run L ord h (Some c1) ms) as [s2 os]. cbn [snd] in *. rewrite Eo.
    pose proof (small_num ds U c P S) as Hn. assert (0 <= pairs_in pss) by (unfold pairs_in; lia).
    assert (Hq : octet_pairs qs) by (intros k v Hkv; apply Hb, Hi, Hkv).
    pose proof (small_nkey ds U c P R S) as Hk.
    destruct (real_ops_ok h ws G He (instrs_of L ord (c_gen c) (c_table c) qs)) as (x & _ & Ex & _).
    { apply instrs_fit; try assumption; [apply S|lia|lia]. }
    rewrite Ex. eexists (_ :: outs). reflexivity. }
  apply (Rec ms pss HF c0 (fresh_small ds U c0 F0)). rewrite (fr_nlru _ _ F0), (wf_num _ (proj1 (fr_ok _ _ F0))).
  replace (length (entries (c_table c0))) with 63%nat; [lia|]. pose proof (fr_pairs _ _ F0) as E. apply (f_equal (@length _)) in E. rewrite map_length, (Permutation_length P) in E.
  destruct default_size as (_ & _ & Hd). lia.
Qed.
Print Assumptions C61_small_sessions.

(** ** C63: the numbers run out *)

(** What no field holds is refused with one of two exceptions. *)
Theorem C63_numbers_run_out : forall is_request L ord h s U ms pss m ps m' ps' p, processor is_request ord h s -> roomy U ->
  Forall2 (plain_message L U) ms pss -> plain_message L U m ps -> plain_message L U m' ps' ->
  65535 <= 63 + pairs_in pss -> In p ps -> ~ In p ps' ->
  let out := snd (db_compress L ord h (fst (run L ord h s (ms ++ [m]))) m') in out = Err StandardError \/ out = Err StructError.
Proof.
  intros is_request L ord h s U ms pss m ps m' ps' p [Ec (ds & P & En) Ho] R HF Hm Hm' Hl Hp Hp'. cbv zeta.
  destruct (db_new_ok ds P) as (c0 & E0 & F0). assert (s = Some c0) by congruence. subst s.
  destruct (run_small L ord h ds U P R Ho ms pss HF c0 (fresh_small ds U c0 F0)) as (c1 & E1 & S1 & En1 & Em1 & _).
  destruct (one_call L ord h ds U c1 m ps P R S1 Ho Hm) as (c2 & qs & _ & _ & _ & E2 & S2 & G2 & _ & _ & Fl & _).
  assert (Er : fst (run L ord h (Some c0) (ms ++ [m])) = Some c2).
  { rewrite run_app. destruct (run L ord h (Some c0) ms) as [s1 o1]. cbn [fst] in E1. subst s1. cbn [run]. rewrite E2. reflexivity. }
  rewrite Er. destruct (one_call L ord h ds U c2 m' ps' P R S2 Ho Hm') as (c3 & rs & Pr & _ & _ & E3 & _). rewrite E3. cbn [snd].
  apply real_ops_refused. intros C. cbn [instrs_of n_toggl] in C. apply Forall_app in C. destruct C as [_ C]. rewrite Forall_forall in C.
  apply G2 in Hp. unfold group in Hp. apply in_map_iff in Hp. destruct Hp as (e & Ee & He). apply filter_In in He. destruct He as [He Ge].
  destruct (sm_ok _ _ _ S2) as (W2 & _ & Ha2). specialize (C (e_idx e)). rewrite Forall_forall in Fl. specialize (Fl e He Ge).
  assert (Hn : b_nlru (c_table c0) - b_num (c_table c0) = 0).
  { rewrite (fr_nlru _ _ F0), (wf_num _ (proj1 (fr_ok _ _ F0))). pose proof (fr_pairs _ _ F0) as E. apply (f_equal (@length _)) in E. rewrite map_length, (Permutation_length P) in E.
    destruct default_size as (_ & _ & Hd). lia. }
  assert (H63 : b_num (c_table c0) = 63) by (pose proof (fr_nlru _ _ F0); lia).
  assert (Hin : In (e_idx e) (turn_offs ord (c_gen c2) (each (regen (touched (c_gen c2) rs)) (c_table c2)))).
  { apply turn_offs_in; [exact Ho|now apply aged_stale|]. exists e. split; [exact He|]. split; [exact Ge|]. split; [|reflexivity]. destruct (has rs e) eqn:Eh; [|reflexivity]. exfalso. apply has_in in Eh.
    apply Hp'. rewrite <- Ee. eapply Permutation_in; [exact Pr|exact Eh]. }
  specialize (C Hin). unfold idx_ok in C. lia.
Qed.
Print Assumptions C63_numbers_run_out.

(** ** Cases *)

Lemma total_nodup l : total (nodup str_dec l) <= total l.
Proof.
  induction l as [|x l IH]; [reflexivity|]. cbn [nodup]. rewrite total_cons. pose proof (slen_nonneg x). destruct (in_dec str_dec x l); [lia|]. rewrite total_cons. lia.
Qed.
Lemma name_octets_le ps : name_octets ps <= total (map fst ps). Proof. apply total_nodup. Qed.
Lemma roomy_bound U : (length U <= 961)%nat -> (forall p, In p U -> 664 + total (map fst U) + slen (snd p) <= 65536) -> roomy U.
Proof.
  intros Hn Hs. constructor; [exact Hn|]. intros p Hp. specialize (Hs p Hp). pose proof (name_octets_le (default_dict ++ U)) as H. rewrite map_app, total_app in H. destruct default_size as (E & _). rewrite E in H.
  revert H. generalize (name_octets (default_dict ++ U)). intros; lia.
Qed.
Lemma some_processor : exists h s, processor true (fun l => l) h s.
Proof.
  destruct C51_nontrivial as [(h & Eh) _]. destruct (db_new_ok default_dict (Permutation_refl _)) as (c & Ec & _). exists h, (Some c). constructor; [exact Eh| |reflexivity]. exists default_dict. split; [reflexivity|exact Ec].
Qed.

(** A cookie with two crumbs, a path and a header without a place in the defaults. *)
Definition some_pairs : list (str * str) := [(lit "cookie", lit "c=1"); (lit "cookie", lit "d=2"); (lit ":path", lit "/index.html"); (lit "x-own", lit "7")].
Definition some_message : message := [(lit ":path", lit "/index.html"); (lit "cookie", lit "d=2; c=1"); (lit "x-own", lit "7")].
Definition some_listing : list (str * str) := [(lit ":path", lit "/index.html"); (lit "cookie", lit "c=1"); (lit "cookie", lit "d=2"); (lit "x-own", lit "7")].
Lemma some_plain : plain_message some_library some_pairs some_message some_listing /\ plain_message some_library some_pairs [] [].
Proof.
  split.
  - split; [apply pieces_stand; vm_compute; reflexivity|]. split; [repeat constructor; vm_compute; intuition discriminate|]. intros p Hp. vm_compute in Hp |- *. tauto.
  - split; [constructor|]. split; [constructor|intros p []].
Qed.
Lemma some_roomy : roomy some_pairs.
Proof. apply roomy_bound; [vm_compute; lia|]. intros p Hp. vm_compute in Hp. destruct Hp as [<-|[<-|[<-|[<-|[]]]]]; vm_compute; discriminate. Qed.
Lemma some_octets : octet_pairs some_pairs.
Proof. intros k v Hp. vm_compute in Hp. destruct Hp as [E|[E|[E|[E|[]]]]]; injection E as <- <-; split; repeat constructor. Qed.
Example C60_example : exists h s o, processor true (fun l => l) h s /\
  snd (run some_library (fun l => l) h (fst (run some_library (fun l => l) h s [some_message; []])) [some_message; some_message; some_message]) = [o; Ok nothing_new; Ok nothing_new].
Proof.
  destruct some_processor as (h & s & Pr). destruct (C60_repeated_message true some_library (fun l => l) h s some_pairs [some_message; []] [some_listing; []] some_message some_listing 2 Pr some_roomy) as (o & E).
  - constructor; [apply some_plain|]. constructor; [apply some_plain|constructor].
  - apply some_plain.
  - exists h, s, o. split; [exact Pr|exact E].
Qed.
Example C61_example : exists h s o1 o2 o3, processor true (fun l => l) h s /\ snd (run some_library (fun l => l) h s [some_message; []; some_message]) = [Ok o1; Ok o2; Ok o3].
Proof.
  destruct some_processor as (h & s & Pr). destruct (C61_small_sessions true some_library (fun l => l) h s some_pairs [some_message; []; some_message] [some_listing; []; some_listing] Pr some_roomy some_octets) as (outs & E).
  - constructor; [apply some_plain|]. constructor; [apply some_plain|]. constructor; [apply some_plain|constructor].
  - vm_compute. reflexivity.
  - pose proof (f_equal (@length _) E) as El. rewrite run_length, map_length in El.
    destruct outs as [|o1 [|o2 [|o3 [|o4 outs]]]]; try discriminate El. exists h, s, o1, o2, o3. split; [exact Pr|exact E].
Qed.
(** After 16500 messages of four pairs each, turning the headers off raises. *)
Lemma pairs_in_repeat ps n : pairs_in (repeat ps n) = Z.of_nat n * Z.of_nat (length ps).
Proof. induction n as [|n IH]; [reflexivity|]. cbn [repeat]. rewrite pairs_in_cons, IH. lia. Qed.
Example C63_example : exists h s, processor true (fun l => l) h s /\
  let out := snd (db_compress some_library (fun l => l) h (fst (run some_library (fun l => l) h s (repeat some_message (N.to_nat 16500) ++ [some_message]))) []) in
  out = Err StandardError \/ out = Err StructError.
Proof.
  destruct some_processor as (h & s & Pr). exists h, s. split; [exact Pr|].
  refine (C63_numbers_run_out true some_library (fun l => l) h s some_pairs (repeat some_message (N.to_nat 16500)) (repeat some_listing (N.to_nat 16500)) some_message some_listing [] [] (lit "x-own", lit "7") Pr some_roomy _ _ _ _ _ _).
  - generalize (N.to_nat 16500). induction n as [|n IH]; [constructor|]. cbn [repeat]. constructor; [apply some_plain|exact IH].
  - apply some_plain.
  - apply some_plain.
  - rewrite pairs_in_repeat. change (Z.of_nat (length some_listing)) with 4. lia.
  - vm_compute. tauto.
  - intros [].
Qed.

(** *** Without different pairs the repetition is not free *)
(** A crumb that is known but not in use, twice in one cookie, is turned on and off again:
    the next message, the same one, turns it on and off again, and what the processor
    takes to be in use is not what the message says. *)
Theorem C60_doubled_crumb_refuted : exists s m, db_new default_dict = Ok s /\ forall h, exists o1 o2 o3,
  snd (run some_library (fun l => l) h s [[(lit "cookie", lit "a=1")]; []; m; m]) = [o1; o2; Ok o3; Ok o3] /\ o3 <> nothing_new.
Proof.
  eexists _, [(lit "cookie", lit "a=1; a=1")]. split; [vm_compute; reflexivity|]. intros h. cbn [run].
  unfold db_compress. do 4 (match goal with |- context [make_operations ?a ?b ?c ?d] => let v := eval vm_compute in (make_operations a b c d) in change (make_operations a b c d) with v; cbv beta iota end).
  do 2 eexists. eexists. cbn [snd]. split.
  - set (x := real_ops h _). set (y := real_ops h _). vm_compute. reflexivity.
  - vm_compute. discriminate.
Qed.
Print Assumptions C60_doubled_crumb_refuted.
