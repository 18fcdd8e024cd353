(** * Properties C61 and C62, continued: what stops a delta_bohe processor. *)
From Coq Require Import String List NArith ZArith Bool Arith Lia ZifyN ZifyNat Permutation.
From Verif Require Import PyBase PyStr NBits Bits BB_Model BB_Spec BB_Proofs BB_Read D2Huff_Model D2Huff_Proofs D2Wire_Proofs D2Wire_Frame.
From Verif Require Import D1Huff_Model D1Huff_Proofs Prop_D1Huff D1Wire_Model D1Wire_Proofs D1Wire_Frame Prop_D1Wire Small_Model Bohe_Model Prop_Bohe.
From Verif Require Import DB_Model DB_Proofs DB_Ops DB_Session DB_Wire DB_Text Prop_DB.
Import ListNotations.
Open Scope Z_scope.
Open Scope py_scope.

(** ** Sessions of any kind *)

Lemma run_dead L ord h : forall ms, run L ord h None ms = (None, repeat (Err StandardError) (length ms)).
Proof. induction ms as [|m ms IH]; [reflexivity|]. cbn [run db_compress length repeat]. now rewrite IH. Qed.
Lemma called_held gen f ps popped kept c c' : codec_ok c -> codec_ok c' -> called gen f ps popped kept (c_table c) (c_table c') -> incl (held c') (held c ++ ps).
Proof.
  intros (W & Hn & _) (W' & Hn' & _) Hc p Hp. unfold held in *. pose proof (called_cores _ _ _ _ _ _ _ Hn Hn' Hc) as P. apply in_map_iff in Hp. destruct Hp as (e & <- & He).
  assert (Hi : In (core e) (map core (entries (c_table c')))) by now apply in_map. eapply Permutation_in in Hi; [|exact P]. apply in_app_iff in Hi. apply in_app_iff. destruct Hi as [Hi|Hi].
  - left. apply in_map_iff in Hi. destruct Hi as (x & Ex & Hx). apply (f_equal fst) in Ex. cbn [core core_as fst] in Ex. rewrite <- Ex. apply in_map. unfold entries. rewrite Hn, app_nil_r.
    apply in_app_iff in Hx. apply in_app_iff. destruct Hx as [Hx|Hx]; [now left|right]. destruct (cl_kept _ _ _ _ _ _ _ Hc) as (gone & _ & ->). apply in_app_iff. now right.
  - right. apply in_map_iff in Hi. destruct Hi as (q & Eq & Hq). apply (f_equal fst) in Eq. cbn [core fst] in Eq. rewrite <- Eq. now apply news_in in Hq.
Qed.
Lemma stands_perm L m ps : stands L m ps -> exists qs, pieces L m = Ok qs /\ Permutation qs ps. Proof. apply stands_pieces. Qed.
Lemma run_any L ord h : ord_ok ord -> forall ms c, codec_ok c -> forall c', fst (run L ord h (Some c) ms) = Some c' ->
  codec_ok c' /\ (forall pss, Forall2 (stands L) ms pss -> incl (held c') (held c ++ concat pss)).
Proof.
  intros Ho. induction ms as [|m ms IH]; intros c W c' E.
  - cbn in E. assert (c' = c) by congruence. subst. split; [exact W|]. intros pss HF. inversion HF. subst. cbn [concat]. rewrite app_nil_r. apply incl_refl.
  - cbn [run] in E. unfold db_compress in E. destruct (make_operations L ord c m) as [[c1 i]|e] eqn:Em.
    2:{ rewrite run_dead in E. discriminate. }
    destruct (run L ord h (Some c1) ms) as [s2 os] eqn:Er. cbn [fst] in E. destruct (call_ok L ord c m c1 i W Ho Em) as (W1 & _ & ps & Ep & _ & f & popped & kept & _ & Hc).
    specialize (IH c1 W1 c'). rewrite Er in IH. cbn [fst] in IH. destruct (IH E) as (W' & Hi). split; [exact W'|]. intros pss HF. inversion HF as [|m0 ps0 ms0 pss0 Hs HF']. subst. cbn [concat].
    destruct (stands_pieces L m ps0 Hs) as (qs & Eq & Pq). assert (qs = ps) by congruence. subst qs.
    intros p Hp. apply (Hi pss0 HF') in Hp. rewrite !in_app_iff in *. destruct Hp as [Hp|Hp]; [|tauto]. apply (called_held _ _ _ _ _ _ _ W W1 Hc) in Hp. apply in_app_iff in Hp. destruct Hp as [Hp|Hp]; [now left|].
    right. left. eapply Permutation_in; [exact Pq|exact Hp].
Qed.

(** ** C62: an exception is for ever *)

(** An exception other than the two of the fields that do not fit leaves a
    processor every call of which raises StandardError. *)
Theorem C62_dead_after_exception : forall is_request L ord h s ms m e later, processor is_request ord h s ->
  (forall ps, stands L m ps -> octet_pairs ps) ->
  let s1 := fst (run L ord h s ms) in let s2 := fst (db_compress L ord h s1 m) in
  snd (db_compress L ord h s1 m) = Err e -> e <> StandardError -> e <> StructError ->
  snd (run L ord h s2 later) = repeat (Err StandardError) (length later).
Proof.
  intros is_request L ord h s ms m e later [Ec (ds & P & En) Ho] Hb s1 s2 E N1 N2. subst s2. destruct s1 as [c|] eqn:Es.
  2:{ cbn [db_compress fst]. now rewrite run_dead. }
  subst s1. destruct (db_new_ok ds P) as (c0 & E0 & F0). assert (s = Some c0) by congruence. subst s.
  destruct (run_any L ord h Ho ms c0 (fr_ok _ _ F0) c Es) as [W _]. unfold db_compress in *. destruct (make_operations L ord c m) as [[c1 i]|e'] eqn:Em; cbn [fst snd] in *; [|now rewrite run_dead].
  exfalso. destruct (call_ok L ord c m c1 i W Ho Em) as (_ & _ & ps & Ep & -> & _). destruct (coder_words is_request h Ec) as (ws & G & He).
  specialize (Hb ps (pieces_stand L m ps Ep)).
  destruct (real_ops_cases h ws G He (instrs_of L ord (c_gen c) (c_table c) ps)) as [Hi|[Hr|Hr]]; [| |destruct (real_ops_ok h ws G He _ Hi) as (x & _ & Ex & _); congruence|congruence|congruence].
  - apply Forall_forall. intros x Hx. cbn [instrs_of n_clone] in Hx. apply in_flat_map in Hx. destruct Hx as ([k v] & Hp & Hx). unfold clone_of in Hx. cbn [fst snd] in Hx.
    destruct (find_entry _ _ _); [destruct Hx|]. destruct (key_index _ _); [|destruct Hx]. destruct Hx as [<-|[]]. cbn [fst snd]. now apply (Hb k v).
  - apply Forall_forall. intros x Hx. cbn [instrs_of n_kvsto] in Hx. apply in_flat_map in Hx. destruct Hx as ([k v] & Hp & Hx). unfold kvsto_of in Hx. cbn [fst snd] in Hx.
    destruct (find_entry _ _ _); [destruct Hx|]. destruct (key_index _ _); [destruct Hx|]. destruct Hx as [<-|[]]. cbn [fst snd]. now apply (Hb k v).
Qed.
Print Assumptions C62_dead_after_exception.

(** An encoder that raises raises from compress, and the processor is dead from then on. *)
Theorem C62_encoder_raises : forall is_request L ord h s ms k v x e later, processor is_request ord h s ->
  In x (parts k v) -> encoded L k x = Err e ->
  let s1 := fst (run L ord h s ms) in let s2 := fst (db_compress L ord h s1 [(k, v)]) in
  (exists e', snd (db_compress L ord h s1 [(k, v)]) = Err e') /\ snd (run L ord h s2 later) = repeat (Err StandardError) (length later).
Proof.
  intros is_request L ord h s ms k v x e later [Ec (ds & P & En) Ho] Hx Ex s1 s2. subst s2. destruct s1 as [c|] eqn:Es.
  2:{ cbn [db_compress fst snd]. rewrite run_dead. eauto. }
  assert (H : exists e', pieces L [(k, v)] = Err e').
  { cbn [pieces]. assert (Hv : In x (values_of k v)) by (eapply Permutation_in; [symmetry; apply values_parts|exact Hx]). clear - Hv Ex.
    assert (K : exists e', map_res (bohe_encode L k) (values_of k v) = Err e').
    { induction (values_of k v) as [|y l IH]; [contradiction|]. cbn [map_res]. destruct Hv as [->|Hv].
      - change (bohe_encode L k x) with (encoded L k x). rewrite Ex. now exists e.
      - destruct (bohe_encode L k y) as [w|e1]; [|now exists e1]. cbn [bind]. destruct (IH Hv) as (e' & ->). now exists e'. }
    destruct K as (e' & ->). now exists e'. }
  destruct H as (e' & E'). unfold db_compress. rewrite (make_operations_pieces L ord c [(k, v)] e' E'). cbn [fst snd]. rewrite run_dead. eauto.
Qed.
Print Assumptions C62_encoder_raises.

(** ** C61: what raises *)

(** *** A new pair twice *)
Theorem C61_new_pair_twice : forall is_request L ord h s ms pss m ps p later, processor is_request ord h s ->
  Forall2 (stands L) ms pss -> stands L m ps -> ~ In p (default_dict ++ concat pss) -> (2 <= count_occ pair_dec ps p)%nat ->
  let s1 := fst (run L ord h s ms) in let s2 := fst (db_compress L ord h s1 m) in
  (exists e, snd (db_compress L ord h s1 m) = Err e) /\ snd (run L ord h s2 later) = repeat (Err StandardError) (length later).
Proof.
  intros is_request L ord h s ms pss m ps p later [Ec (ds & P & En) Ho] HF Hm Hp Hc s1 s2. subst s2. destruct s1 as [c|] eqn:Es.
  2:{ cbn [db_compress fst snd]. rewrite run_dead. eauto. }
  subst s1. destruct (db_new_ok ds P) as (c0 & E0 & F0). assert (s = Some c0) by congruence. subst s.
  destruct (run_any L ord h Ho ms c0 (fr_ok _ _ F0) c Es) as [W Hi]. specialize (Hi pss HF). destruct (stands_pieces L m ps Hm) as (qs & Eq & Pq).
  destruct (make_operations L ord c m) as [[c1 i]|e] eqn:Em.
  2:{ unfold db_compress. rewrite Em. cbn [fst snd]. rewrite run_dead. eauto. }
  exfalso. destruct (call_ok L ord c m c1 i W Ho Em) as (W1 & _ & qs' & Eq' & _ & f & popped & kept & _ & Hcl). assert (qs' = qs) by congruence. subst qs'.
  assert (Ha : absent (c_table c) p).
  { intros C. change (In p (held c)) in C. apply Hi in C. unfold held in C at 1. rewrite (fr_pairs _ _ F0) in C. apply Hp. rewrite in_app_iff in *. destruct C as [C|C]; [left|now right]. eapply Permutation_in; [exact P|exact C]. }
  pose proof (called_cores _ _ _ _ _ _ _ (proj1 (proj2 W)) (proj1 (proj2 W1)) Hcl) as Pc. pose proof (wf_pair _ (proj1 W1)) as Nd.
  assert (Pp : Permutation (map pair_of (entries (c_table c1))) (map pair_of (b_def (c_table c) ++ kept) ++ news (c_table c) qs)).
  { apply (Permutation_map fst) in Pc. rewrite map_map in Pc. rewrite map_app, !map_map in Pc. cbn [core core_as fst] in Pc. rewrite map_id in Pc. exact Pc. }
  assert (Nn : NoDup (news (c_table c) qs)).
  { eapply Permutation_NoDup in Nd; [|exact Pp]. clear - Nd. induction (map pair_of (b_def (c_table c) ++ kept)) as [|x l IH]; [exact Nd|]. inversion Nd. now apply IH. }
  rewrite <- (proj1 (Permutation_count_occ pair_dec qs ps) Pq p) in Hc.
  pose proof (proj1 (NoDup_count_occ pair_dec _) Nn p) as Hone.
  assert (Two : (2 <= count_occ pair_dec (news (c_table c) qs) p)%nat); [|lia].
  clear - Ha Hc. unfold news. rewrite count_occ_app.
  assert (Hf : find_entry (c_table c) (fst p) (snd p) = None) by (apply find_entry_none; destruct p; exact Ha).
  assert (Cf : forall g, g p = true -> count_occ pair_dec (filter g qs) p = count_occ pair_dec qs p).
  { intros g Hg. clear Hc. induction qs as [|q l IH]; [reflexivity|]. cbn [filter count_occ]. destruct (pair_dec q p) as [->|Hq].
    - rewrite Hg. cbn [count_occ]. destruct (pair_dec p p); [now rewrite IH|contradiction].
    - destruct (g q); [cbn [count_occ]; destruct (pair_dec q p); [contradiction|exact IH]|exact IH]. }
  destruct (is_clone (c_table c) p) eqn:E1.
  - rewrite (Cf (is_clone (c_table c)) E1). lia.
  - rewrite (Cf (is_kvsto (c_table c))); [lia|]. unfold is_clone, is_kvsto in *. rewrite Hf in *. destruct (key_index _ _); [discriminate|reflexivity].
Qed.
Print Assumptions C61_new_pair_twice.

(** *** A long value *)
Lemma name_octets_nonneg ps : 0 <= name_octets ps. Proof. apply total_nonneg. Qed.
Lemma name_octets_incl ks ps : NoDup ks -> incl ks (map fst ps) -> total ks <= name_octets ps.
Proof. intros Hn Hi. apply total_incl; [exact Hn|]. intros x Hx. apply nodup_In. now apply Hi. Qed.
Lemma insert_val_long refs gen t k v : b_num t + 1 <= max_vals -> 0 <= b_size t -> absent t (k, v) -> max_state_size < slen v -> insert_val refs gen t k v = Err NameError.
Proof.
  intros Hn Hs Ha Hv. unfold insert_val, add_key, make_space.
  assert (H0 : (max_vals <? b_num t + 0) = false) by (apply Z.ltb_ge; lia). assert (H1 : (max_vals <? b_num t + 1) = false) by (apply Z.ltb_ge; lia).
  destruct (key_index (b_keys t) k) as [n|].
  - cbn [bind]. rewrite (proj2 (find_entry_none t k v) Ha), H1. assert (H2 : (max_state_size <? b_size t + slen v) = true) by (apply Z.ltb_lt; lia). now rewrite H2.
  - rewrite H0. destruct (max_state_size <? b_size t + slen k); [reflexivity|]. cbn [bind]. cbv zeta. unfold find_entry, entries. cbn [b_def b_old b_new b_num b_size].
    pose proof (proj2 (find_entry_none t k v) Ha) as Hf. unfold find_entry, entries in Hf. rewrite Hf. rewrite H1. assert (H2 : (max_state_size <? b_size t + slen k + slen v) = true) by (apply Z.ltb_lt; pose proof (slen_nonneg k); lia). now rewrite H2.
Qed.
Theorem C61_long_value : forall is_request L ord h s U ms pss k v later, processor is_request ord h s -> roomy U -> (length U <= 960)%nat ->
  Forall2 (plain_message L U) ms pss -> k <> lit "cookie" -> encoder L k = None -> 65536 < Z.of_nat (length v) ->
  snd (run L ord h (fst (run L ord h s ms)) ([(k, v)] :: later)) = Err NameError :: repeat (Err StandardError) (length later).
Proof.
  intros is_request L ord h s U ms pss k v later [Ec (ds & P & En) Ho] R Hu HF Hk He Hv. destruct (db_new_ok ds P) as (c0 & E0 & F0). assert (s = Some c0) by congruence. subst s.
  destruct (run_small L ord h ds U P R Ho ms pss HF c0 (fresh_small ds U c0 F0)) as (c & Es & S & _). rewrite Es.
  assert (Ep : pieces L [(k, v)] = Ok [(k, v)]).
  { cbn [pieces]. unfold values_of, bohe_encode. destruct (str_eqb k (lit "cookie")) eqn:E; [apply str_eqb_eq in E; contradiction|]. cbn [map_res]. rewrite He. reflexivity. }
  destruct S as [W Hin Hs Hnm]. destruct (make_operations_ok L ord c [(k, v)] [(k, v)] W Ho Ep) as (f & _ & _ & Em).
  assert (Ha : absent (c_table c) (k, v)).
  { intros C. apply Hin in C. apply in_app_iff in C. change (65536 < slen v) in Hv. destruct C as [C|C].
    - apply (Permutation_in _ P) in C. destruct default_size as (_ & Hd & _). rewrite forallb_forall in Hd. apply Hd in C. apply Z.leb_le in C. cbn [snd] in C. lia.
    - apply (rm_size _ R) in C. cbn [snd] in C. pose proof (name_octets_nonneg (default_dict ++ U)) as Z0. revert C Z0. generalize (name_octets (default_dict ++ U)). intros; lia. }
  assert (Enw : news (c_table c) [(k, v)] = [(k, v)]).
  { unfold news. cbn [filter]. unfold is_clone, is_kvsto. cbn [fst snd]. rewrite (proj2 (find_entry_none _ k v) Ha). destruct (key_index _ k); reflexivity. }
  rewrite Enw in Em. cbn [insert_all] in Em. rewrite insert_val_long in Em.
  - cbn [bind] in Em. cbn [run]. unfold db_compress. rewrite Em, run_dead. reflexivity.
  - cbn [each b_num]. pose proof (small_num ds U c P (mk_small ds U c W Hin Hs Hnm)). unfold max_vals. lia.
  - cbn [each b_size]. rewrite Hs. apply total_nonneg.
  - unfold absent. rewrite each_entries, map_map. exact Ha.
  - exact Hv.
Qed.
Print Assumptions C61_long_value.

(** *** A full table *)
Lemma insert_val_full refs gen t k v : b_num t = max_vals -> absent t (k, v) -> b_old t <> [] -> existsb grouped (entries t) = false ->
  b_size t + slen k <= max_state_size -> insert_val refs gen t k v = Err TypeError.
Proof.
  intros Hn Ha Ho Hg Hs. unfold insert_val, add_key.
  assert (Hp : forall r keys n sz, pop_one r (mk_table keys n (b_nlru t) sz (b_num t) (b_def t) (b_old t) (b_new t)) = Err TypeError).
  { intros r keys n sz. unfold pop_one. cbn [b_old b_keys b_nkey b_nlru b_size b_num b_def b_new]. destruct (b_old t) as [|e o] eqn:Eo; [contradiction|].
    unfold entries in *. rewrite Eo in Hg. cbn [b_def b_old b_new]. rewrite !existsb_app in *. cbn [existsb] in Hg. destruct (existsb grouped (b_def t)), (existsb grouped o), (existsb grouped (b_new t)), (grouped e); try discriminate. reflexivity. }
  assert (H1 : (max_vals <? b_num t + 1) = true) by (apply Z.ltb_lt; lia). assert (H0 : (max_vals <? b_num t + 0) = false) by (apply Z.ltb_ge; lia).
  pose proof (proj2 (find_entry_none t k v) Ha) as Hf. destruct (key_index (b_keys t) k) as [n|].
  - cbn [bind]. rewrite Hf. unfold make_space. rewrite H1. specialize (Hp (k :: refs) (b_keys t) (b_nkey t) (b_size t)). destruct t. cbn in *. now rewrite Hp.
  - unfold make_space at 1. rewrite H0. assert (H2 : (max_state_size <? b_size t + slen k) = false) by (apply Z.ltb_ge; lia). rewrite H2. cbn [bind]. cbv zeta.
    unfold find_entry, entries in *. cbn [b_def b_old b_new]. rewrite Hf. unfold make_space. cbn [b_num]. rewrite H1. now rewrite Hp.
Qed.
(** Once 961 pairs that are not defaults have been sent, a message that has nothing but
    new pairs raises. *)
Theorem C61_full_table : forall is_request L ord h s U ms pss m ps later, processor is_request ord h s -> roomy U -> length U = 961%nat -> NoDup (default_dict ++ U) ->
  Forall2 (plain_message L U) ms pss -> incl U (concat pss) -> stands L m ps -> NoDup ps -> ps <> [] -> (forall p, In p ps -> ~ In p (default_dict ++ U)) ->
  (forall p, In p ps -> name_octets (default_dict ++ U) + slen (fst p) <= 65536) ->
  snd (run L ord h (fst (run L ord h s ms)) (m :: later)) = Err TypeError :: repeat (Err StandardError) (length later).
Proof.
  intros is_request L ord h s U ms pss m ps later [Ec (ds & P & En) Ho] R Hu Nd HF Hall Hm Np Hne Hout Hsz. destruct (db_new_ok ds P) as (c0 & E0 & F0). assert (s = Some c0) by congruence. subst s.
  destruct (run_small L ord h ds U P R Ho ms pss HF c0 (fresh_small ds U c0 F0)) as (c & Es & S & _ & _ & Hh). rewrite Es.
  destruct (stands_pieces L m ps Hm) as (qs & Eq & Pq). pose proof (small_num ds U c P S) as Hle. pose proof S as S0. destruct S as [W Hin Hs Hnm].
  assert (Pdu : Permutation (default_dict ++ U) (ds ++ U)) by (apply Permutation_app_tail; now symmetry).
  assert (Hge : 1024 <= b_num (c_table c)).
  { rewrite (wf_num _ (proj1 W)). assert (B : (length (ds ++ U) <= length (held c))%nat).
    { apply NoDup_incl_length; [eapply Permutation_NoDup; [exact Pdu|exact Nd]|]. intros p Hp. apply Hh. apply in_app_iff in Hp. destruct Hp as [Hp|Hp]; [left|right; now apply Hall]. unfold held. rewrite (fr_pairs _ _ F0). exact Hp. }
    unfold held in B. rewrite map_length, app_length, (Permutation_length P), Hu in B. destruct default_size as (_ & _ & Hd). rewrite Hd in B. lia. }
  assert (Hn : b_num (c_table c) = max_vals) by (unfold max_vals; lia).
  assert (Nq : NoDup qs) by (eapply Permutation_NoDup; [symmetry; exact Pq|exact Np]).
  assert (Hq : forall p, In p qs -> absent (c_table c) p).
  { intros p Hp C. apply Hin in C. apply (Hout p); [eapply Permutation_in; [exact Pq|exact Hp]|]. eapply Permutation_in; [symmetry; exact Pdu|exact C]. }
  destruct (make_operations_ok L ord c m qs W Ho Eq) as (f & _ & Hf & Em). specialize (Hf Nq).
  destruct (news (c_table c) qs) as [|[k v] r] eqn:Enw.
  { exfalso. destruct ps as [|p ps]; [contradiction|]. assert (Hp : In p qs) by (eapply Permutation_in; [symmetry; exact Pq|now left]). assert (Hw : In p (news (c_table c) qs)) by (apply news_in; auto). rewrite Enw in Hw. destruct Hw. }
  assert (Hkv : In (k, v) qs) by (apply (news_in (c_table c) qs); rewrite Enw; now left).
  cbn [insert_all] in Em. rewrite insert_val_full in Em.
  - cbn [bind] in Em. cbn [run]. unfold db_compress. rewrite Em, run_dead. reflexivity.
  - exact Hn.
  - unfold absent. rewrite each_entries, map_map. apply (Hq _ Hkv).
  - cbn [each b_old]. intros C. apply map_eq_nil in C.
    assert (B : (length (held c) <= length ds)%nat).
    { apply NoDup_incl_length; [apply (wf_pair _ (proj1 W))|]. intros p Hp. unfold held, entries in Hp. rewrite C, (proj1 (proj2 W)), !app_nil_r in Hp.
      assert (Hd : forall ms c c', codec_ok c -> fst (run L ord h (Some c) ms) = Some c' -> map pair_of (b_def (c_table c')) = map pair_of (b_def (c_table c))).
      { clear - Ho. induction ms as [|m ms IH]; intros c c' W E; [cbn in E; assert (c' = c) by congruence; now subst|]. cbn [run] in E. unfold db_compress in E.
        destruct (make_operations L ord c m) as [[c1 i]|] eqn:Em; [|rewrite run_dead in E; discriminate]. destruct (run L ord h (Some c1) ms) as [s2 os] eqn:Er. cbn [fst] in E.
        destruct (call_ok L ord c m c1 i W Ho Em) as (W1 & _ & ps & _ & _ & f & popped & kept & _ & Hc). rewrite (IH c1 c' W1); [|now rewrite Er].
        pose proof (cl_def _ _ _ _ _ _ _ Hc) as D. apply (f_equal (map fst)) in D. rewrite !map_map in D. exact D. }
      rewrite (Hd ms c0 c (fr_ok _ _ F0) Es) in Hp. rewrite <- (fr_pairs _ _ F0). unfold entries. rewrite map_app, in_app_iff. now left. }
    unfold held in B. rewrite map_length, (Permutation_length P) in B. destruct default_size as (_ & _ & Hd). rewrite Hd in B. pose proof (wf_num _ (proj1 W)) as Wn. lia.
  - rewrite each_entries. destruct (existsb grouped (map (regen f) (entries (c_table c)))) eqn:E; [|reflexivity]. exfalso. apply existsb_exists in E. destruct E as (e' & He' & Ge). apply in_map_iff in He'. destruct He' as (e & <- & He).
    unfold grouped, regen, set_gen in Ge. cbn [e_gen] in Ge. rewrite (Hf e He) in Ge. unfold in_group in Ge. destruct (has qs e) eqn:Eh; [|discriminate]. apply has_in in Eh. apply (Hq _ Eh). now apply in_map.
  - cbn [each b_size]. rewrite Hs. assert (Hkv' : In (k, v) ps) by (eapply Permutation_in; [exact Pq|exact Hkv]). specialize (Hsz _ Hkv'). cbn [fst] in Hsz. unfold max_state_size. change (64 * 1024) with 65536.
    assert (Hle' : total (map fst (b_keys (c_table c))) <= name_octets (default_dict ++ U)); [|revert Hle' Hsz; generalize (name_octets (default_dict ++ U)); intros; lia].
    apply name_octets_incl; [apply W|]. intros x Hx. apply Hnm in Hx. eapply Permutation_in; [apply Permutation_map; symmetry; exact Pdu|exact Hx].
Qed.
Print Assumptions C61_full_table.

(** ** Cases *)

(** A number that is none: the processor is dead from then on. *)
Example C62_example : exists h s, processor true (fun l => l) h s /\
  snd (run some_library (fun l => l) h s [some_message; [(lit "content-length", lit "12 bytes")]; some_message; []]) =
  [snd (db_compress some_library (fun l => l) h s some_message); Err ValueError; Err StandardError; Err StandardError].
Proof.
  destruct some_processor as (h & s & Pr). exists h, s. split; [exact Pr|]. destruct Pr as [_ (ds & P & En) Ho]. destruct (db_new_ok ds P) as (c0 & E0 & F0). assert (s = Some c0) by congruence. subst s.
  destruct (one_call some_library (fun l => l) h ds some_pairs c0 some_message some_listing P some_roomy (fresh_small ds some_pairs c0 F0) Ho (proj1 some_plain)) as (c1 & qs & _ & _ & _ & E & _).
  cbn [run]. rewrite E. cbn [snd]. assert (Em : make_operations some_library (fun l => l) c1 [(lit "content-length", lit "12 bytes")] = Err ValueError) by (apply make_operations_pieces; vm_compute; reflexivity).
  unfold db_compress. rewrite Em. reflexivity.
Qed.
(** One long header is enough. *)
Example C61_long_example : exists h s, processor true (fun l => l) h s /\
  snd (run some_library (fun l => l) h s [[(lit "x-long", repeat 97%N (N.to_nat 65537))]; some_message]) = [Err NameError; Err StandardError].
Proof.
  destruct some_processor as (h & s & Pr). exists h, s. split; [exact Pr|].
  refine (C61_long_value true some_library (fun l => l) h s [] [] [] (lit "x-long") (repeat 97%N (N.to_nat 65537)) [some_message] Pr _ _ _ _ _ _).
  - apply roomy_bound; [cbn [length]; lia|intros p []].
  - cbn [length]. lia.
  - constructor.
  - discriminate.
  - vm_compute. reflexivity.
  - rewrite repeat_length. lia.
Qed.
(** So is a cookie with the same crumb twice. *)
Example C61_twice_example : exists h s e, processor true (fun l => l) h s /\
  snd (run some_library (fun l => l) h s [[(lit "cookie", lit "a=1; a=1")]; some_message]) = [Err e; Err StandardError].
Proof.
  destruct some_processor as (h & s & Pr).
  destruct (C61_new_pair_twice true some_library (fun l => l) h s [] [] [(lit "cookie", lit "a=1; a=1")] [(lit "cookie", lit "a=1"); (lit "cookie", lit "a=1")] (lit "cookie", lit "a=1") [some_message] Pr) as ((e & E1) & E2).
  - constructor.
  - apply pieces_stand. vm_compute. reflexivity.
  - cbn [concat]. rewrite app_nil_r. intros C. assert (D : existsb (pair_eqb (lit "cookie", lit "a=1")) default_dict = true) by (apply existsb_exists; exists (lit "cookie", lit "a=1"); split; [exact C|now apply pair_eqb_eq]). vm_compute in D. discriminate.
  - cbn [count_occ]. destruct (pair_dec _ _) as [_|n]; [lia|now exfalso; apply n].
  - exists h, s, e. split; [exact Pr|]. cbn [run fst] in E1, E2 |- *. destruct (db_compress some_library (fun l => l) h s [(lit "cookie", lit "a=1; a=1")]) as [s1 o]. cbn [fst snd] in *.
    subst o. destruct (db_compress some_library (fun l => l) h s1 some_message) as [s2 o2]. cbn [snd length repeat] in *. now rewrite E2.
Qed.
(** 961 messages of one new header each, then a message of another one. *)
Definition numbered_pair (n : nat) : str * str := (lit "x", [N.of_nat (n / 256); N.of_nat (n mod 256)]).
Definition many_pairs : list (str * str) := map numbered_pair (seq 0 961).
Lemma many_length : length many_pairs = 961%nat. Proof. unfold many_pairs. now rewrite map_length, seq_length. Qed.
Lemma many_no_default p : In p default_dict -> fst p <> lit "x".
Proof.
  intros Hp E. assert (D : existsb (fun q => str_eqb (fst q) (lit "x")) default_dict = true) by (apply existsb_exists; exists p; split; [exact Hp|now apply str_eqb_eq]). vm_compute in D. discriminate.
Qed.
Lemma numbered_inj n n' : numbered_pair n = numbered_pair n' -> n = n'.
Proof.
  unfold numbered_pair. intros E. assert (E1 : N.of_nat (n / 256) = N.of_nat (n' / 256)) by congruence. assert (E2 : N.of_nat (n mod 256) = N.of_nat (n' mod 256)) by congruence.
  rewrite (Nat.div_mod n 256), (Nat.div_mod n' 256) by discriminate. apply Nat2N.inj in E1, E2. now rewrite E1, E2.
Qed.
Lemma many_names n : total (map fst (map numbered_pair (seq 0 n))) = Z.of_nat n.
Proof. rewrite map_map. generalize 0%nat. induction n as [|n IH]; intros a; [reflexivity|]. cbn [seq map]. rewrite total_cons, IH. change (slen (fst (numbered_pair a))) with 1. lia. Qed.
Lemma one_header k v : k <> lit "cookie" -> encoder some_library k = None -> stands some_library [(k, v)] [(k, v)].
Proof.
  intros Hk He. apply pieces_stand. cbn [pieces]. unfold values_of, bohe_encode. destruct (str_eqb k (lit "cookie")) eqn:E; [apply str_eqb_eq in E; contradiction|]. cbn [map_res]. rewrite He. reflexivity.
Qed.
Example C61_full_example : exists h s, processor true (fun l => l) h s /\
  snd (run some_library (fun l => l) h (fst (run some_library (fun l => l) h s (map (fun p => [p]) many_pairs))) [[(lit "y", lit "new")]; some_message]) = [Err TypeError; Err StandardError].
Proof.
  destruct some_processor as (h & s & Pr). exists h, s. split; [exact Pr|].
  assert (Hr : roomy many_pairs).
  { apply roomy_bound; [rewrite many_length; lia|]. intros p Hp. unfold many_pairs. rewrite many_names. unfold many_pairs in Hp. apply in_map_iff in Hp. destruct Hp as (n & <- & _). change (slen (snd (numbered_pair n))) with 2. lia. }
  refine (C61_full_table true some_library (fun l => l) h s many_pairs (map (fun p => [p]) many_pairs) (map (fun p => [p]) many_pairs) [(lit "y", lit "new")] [(lit "y", lit "new")] [some_message] Pr Hr many_length _ _ _ _ _ _ _ _).
  - apply NoDup_app_i.
    + pose proof default_names as Hd. revert Hd. generalize default_dict. intros d Hd. induction d as [|p d IH]; [constructor|]. inversion Hd. subst. constructor; [|now apply IH]. intros C. apply H1. now apply in_map.
    + unfold many_pairs. apply NoDup_map_in; [apply seq_NoDup|]. intros x y _ _. apply numbered_inj.
    + intros p Hp C. apply (many_no_default p Hp). unfold many_pairs in C. apply in_map_iff in C. destruct C as (n & <- & _). reflexivity.
  - assert (H : forall l, incl l many_pairs -> Forall2 (plain_message some_library many_pairs) (map (fun p => [p]) l) (map (fun p => [p]) l)); [|apply H, incl_refl].
    induction l as [|p l IH]; intros Hi; [constructor|]. cbn [map]. constructor; [|apply IH; intros q Hq; apply Hi; now right].
    assert (Hp : In p many_pairs) by (apply Hi; now left). pose proof Hp as Hp'. unfold many_pairs in Hp'. apply in_map_iff in Hp'. destruct Hp' as (n & <- & _).
    split; [apply one_header; [discriminate|reflexivity]|]. split; [repeat constructor; intros []|]. intros q [<-|[]]. exact Hp.
  - intros p Hp. apply in_concat. exists [p]. split; [apply in_map_iff; now exists p|now left].
  - apply one_header; [discriminate|reflexivity].
  - repeat constructor. intros [].
  - discriminate.
  - intros p [<-|[]] C. apply in_app_iff in C. destruct C as [C|C].
    + assert (D : existsb (fun q => str_eqb (fst q) (lit "y")) default_dict = true) by (apply existsb_exists; eexists; split; [exact C|now apply str_eqb_eq]). vm_compute in D. discriminate.
    + unfold many_pairs in C. apply in_map_iff in C. destruct C as (n & E & _). discriminate E.
  - intros p [<-|[]]. cbn [fst]. pose proof (name_octets_le (default_dict ++ many_pairs)) as H. rewrite map_app, total_app in H. destruct default_size as (E & _). rewrite E in H. unfold many_pairs in H at 2. rewrite many_names in H.
    change (slen (lit "y")) with 1. revert H. generalize (name_octets (default_dict ++ many_pairs)). intros; lia.
Qed.
