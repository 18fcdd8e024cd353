(** * Property C124, second part: the sites of a delta2_bohe processor. *)
From Coq Require Import String List NArith ZArith Bool Arith Lia ZifyN ZifyNat Permutation Sorted.
From Verif Require Import PyBase PyStr NBits Bits BB_Model BB_Spec BB_Proofs BB_Read D2Huff_Model D2Huff_Proofs D2Wire_Proofs D2Wire_Frame Prop_D2HuffOpt
  D1Huff_Model D1Huff_Proofs Prop_D1Huff D1Wire_Model D1Wire_Proofs D1Wire_Frame Prop_D1Wire Prop_D1Bits Small_Model LB_Model Lib_Model Lib_Spec Lib_Proofs Bohe_Model Host_Model Prop_HostGroups
  DB_Model DB_Proofs DB_Ops DB_Wire DB_Text Prop_DB Prop_DBBits DC_Model DCW_Model Prop_DCTable Prop_DCBits PyStr.
Import ListNotations.
Open Scope N_scope.
Open Scope py_scope.

(** ** Specification *)

Section Session.
  Context (strip : list (str * str) -> list (str * str)) (has_encoder : str -> bool) (enc : str -> str -> res str) (h : huffman).

  (** Keys and values that are sent are octets. *)
  Definition sendable (headers : list (str * str)) : Prop :=
    forall k v, In (k, v) (split_headers (strip headers)) -> is_bytes k /\ forall w, enc k v = Ok w -> is_bytes w.
  (** Messages to hosts in turn, and the ninth octet of what was sent for each. *)
  Inductive toldg : proc -> list str -> list N -> Prop :=
  | toldg_new : toldg dproc_new [] []
  | toldg_step p xs gs ord headers x p1 blob g : toldg p xs gs -> sendable headers ->
      dproc_compress strip has_encoder ord enc h p headers x = Ok (p1, blob) -> nth_error blob 8 = Some g -> toldg p1 (xs ++ [x]) (gs ++ [g]).
End Session.

(** New values for known names: some of the pairs of a message, in their order, each with the
    number of an entry that has its name; the values of names with an encoder of their own are
    sent as they are. *)
Inductive new_for (has_encoder : str -> bool) (c : code) : list (str * str) -> list (Z * str * bool) -> Prop :=
| new_end : new_for has_encoder c [] []
| new_skip p ps vs : new_for has_encoder c ps vs -> new_for has_encoder c (p :: ps) vs
| new_take k v n f ps vs : (exists e, (In e static \/ In e (r_ring (k_lru c))) /\ q_key e = k /\ q_seq e = n) -> (f = true <-> has_encoder k = false) ->
    new_for has_encoder c ps vs -> new_for has_encoder c ((k, v) :: ps) ((n, v, f) :: vs).

(** ** Proofs *)

Lemma real_ops2_ninth is_request h i gid blob : db_coder is_request = Ok h ->
  Forall (fun c => is_bytes (snd (fst c))) (DB_Model.n_clone i) -> Forall (fun c => is_bytes (fst (fst c)) /\ is_bytes (snd (fst c))) (DB_Model.n_kvsto i) ->
  real_ops2 h i gid = Ok blob -> gid < 256 /\ nth_error blob 8 = Some gid.
Proof.
  intros Eh Hc Hk E. destruct (coder_words is_request h Eh) as (ws & G & He).
  assert (Hi : instrs_ok i).
  { unfold real_ops2, serialize2 in E. destruct (put_instrs h i) as [pb|] eqn:Ep; [|discriminate]. exact (put_instrs_fit h ws G He i pb Hc Hk Ep). }
  destruct (N.lt_ge_cases gid 256) as [L|L]; [|rewrite (C124_group_refused is_request h i gid Eh Hi L) in E; discriminate]. split; [exact L|].
  destruct (real_ops2_is h ws G He gid L i Hi) as (b & E' & F & _). assert (b = blob) by congruence. subst b. destruct F; reflexivity.
Qed.

Definition bytes_instrs (i : instrs) : Prop := Forall (fun c => is_bytes (snd c)) (n_clone i) /\ Forall (fun c => is_bytes (fst c) /\ is_bytes (snd c)) (n_kvsto i).
Lemma process_bytes ord enc gid pairs : (forall k v, In (k, v) pairs -> is_bytes k /\ forall w, enc k v = Ok w -> is_bytes w) ->
  forall c i c' i', bytes_instrs i -> process_all ord enc gid c i pairs = Ok (c', i') -> bytes_instrs i'.
Proof.
  induction pairs as [|[k v] r IH]; intros Hp c i c' i' Hi E; cbn [process_all] in E; [assert (i' = i) by congruence; now subst|].
  destruct (enc k v) as [w|] eqn:Ew; [|discriminate]. cbn [bind] in E. destruct (process_kv ord gid c i k w) as [[c1 i1]|] eqn:E1; [|discriminate]. cbn [bind] in E.
  destruct (Hp k v (or_introl eq_refl)) as [Hk Hw]. specialize (Hw w Ew).
  assert (Hi1 : bytes_instrs i1).
  { destruct Hi as [H1 H2]. unfold process_kv in E1. destruct (gs_at (k_groups c) gid) as [g|]; [|discriminate]. cbn [bind] in E1. destruct (has_kv c k w (ord (g_idxs g))) as [[n|]|]; cbn [bind] in E1; [| |discriminate].
    - assert (i1 = i) by congruence. subst. now split.
    - destruct (find_idx c k w) as [[n|] [m|]].
      + destruct (g_has g m); [assert (i1 = i) by congruence; subst; now split|]. assert (i1 = mk_instrs (n_toggl i ++ [m]) (n_clone i) (n_kvsto i)) by congruence. subst. now split.
      + assert (i1 = mk_instrs (n_toggl i) (n_clone i ++ [(n, w)]) (n_kvsto i)) by congruence. subst. split; [|exact H2]. cbn [n_clone]. apply Forall_app. split; [exact H1|]. now repeat constructor.
      + destruct (g_has g m); [assert (i1 = i) by congruence; subst; now split|]. assert (i1 = mk_instrs (n_toggl i ++ [m]) (n_clone i) (n_kvsto i)) by congruence. subst. now split.
      + assert (i1 = mk_instrs (n_toggl i) (n_clone i) (n_kvsto i ++ [(k, w)])) by congruence. subst. split; [exact H1|]. cbn [n_kvsto]. apply Forall_app. split; [exact H2|]. now repeat constructor. }
  apply (IH (fun k' v' H => Hp k' v' (or_intror H)) c1 i1 c' i' Hi1 E).
Qed.
Lemma make_bytes ord enc gid c headers c' i : (forall k v, In (k, v) (split_headers headers) -> is_bytes k /\ forall w, enc k v = Ok w -> is_bytes w) ->
  make_operations ord enc gid c headers = Ok (c', i) -> bytes_instrs i.
Proof.
  intros Hp E. unfold make_operations in E. destruct (gs_make (k_groups c) gid) as [gs g0]. apply bind_ok in E as ([c1 i1] & E1 & E). apply bind_ok in E as (c2 & E2 & E).
  destruct (gs_make (k_groups c2) gid) as [gs' g1]. apply bind_ok in E as (c3 & E3 & E). apply bind_ok in E as (g & E4 & E). apply bind_ok in E as (c4 & E5 & E).
  assert (H0 : bytes_instrs (mk_instrs [] [] [])) by (split; constructor). destruct (process_bytes ord enc gid _ Hp _ _ _ _ H0 E1) as [H1 H2].
  assert (i = mk_instrs (n_toggl i1 ++ ord (g_old g1)) (n_clone i1) (n_kvsto i1)) by congruence. subst. now split.
Qed.
Lemma combine_bytes (l : list (Z * str)) : forall fs : list bool, Forall (fun c => is_bytes (snd c)) l -> Forall (fun c => is_bytes (snd (fst c))) (combine l fs).
Proof. induction l as [|x l IH]; intros [|f fs] H; cbn [combine]; try constructor; inversion H; subst; [assumption|now apply IH]. Qed.

Record sinv (seen : list str) (hosts : dict N) (ids : idstore) : Prop := {
  si_ids : is_ids ids = [];
  si_max : is_max ids = 2 ^ 31;
  si_next : is_next ids = lenN seen;
  si_len : lenN seen <= 255;
  si_hosts : forall x g, dget hosts x = Some g <-> exists n, nth_error seen n = Some x /\ g = N.of_nat (S n);
  si_nodup : NoDup seen }.
Definition site_of (seen : list str) (x : str) (g : N) : Prop := exists n, nth_error seen n = Some (norm_host x) /\ g = N.of_nat (S n).

Lemma compress_site strip has_encoder enc is_request h ord p headers x p1 blob seen : db_coder is_request = Ok h -> sendable strip enc headers -> sinv seen (d_hosts p) (d_ids p) ->
  dproc_compress strip has_encoder ord enc h p headers x = Ok (p1, blob) ->
  exists g, nth_error blob 8 = Some g /\
    ((In (norm_host x) seen /\ site_of seen x g /\ sinv seen (d_hosts p1) (d_ids p1)) \/
     (~ In (norm_host x) seen /\ site_of (seen ++ [norm_host x]) x g /\ sinv (seen ++ [norm_host x]) (d_hosts p1) (d_ids p1))).
Proof.
  intros Eh Hs [I1 I2 I3 I4 I5 I6] E. unfold dproc_compress in E. cbv zeta in E. apply bind_ok in E as ([[gid hosts] ids] & Ea & E).
  destruct (gs_make (k_groups (d_code p)) gid) as [gs g0]. apply bind_ok in E as (fs & Ef & E). apply bind_ok in E as ([c i] & Em & E). apply bind_ok in E as (b & Eb & E).
  assert (p1 = mk_dproc c hosts ids /\ b = blob) as [-> ->] by (split; congruence). clear E. cbn [d_hosts d_ids].
  destruct (make_bytes _ _ _ _ _ _ _ Hs Em) as [B1 B2].
  assert (Hk : Forall (fun c => is_bytes (fst (fst c)) /\ is_bytes (snd (fst c))) (DB_Model.n_kvsto (with_flags has_encoder fs i))).
  { cbn [with_flags DB_Model.n_kvsto]. apply Forall_map. eapply Forall_impl; [|exact B2]. now intros [k v]. }
  destruct (real_ops2_ninth is_request h (with_flags has_encoder fs i) gid blob Eh (combine_bytes _ fs B1) Hk Eb) as [Lg N9]. exists gid. split; [exact N9|].
  destruct (dget (d_hosts p) (norm_host x)) as [g|] eqn:Eg.
  - assert (gid = g /\ hosts = d_hosts p /\ ids = d_ids p) as (-> & -> & ->) by (repeat split; congruence). left. apply I5 in Eg as (n & En & Egn).
    split; [exact (nth_error_In _ _ En)|]. split; [exists n; now split|]. now split.
  - right. assert (Hx : ~ In (norm_host x) seen).
    { intros H. destruct (In_nth_error _ _ H) as (n & En). assert (C : dget (d_hosts p) (norm_host x) = Some (N.of_nat (S n))) by (apply I5; now exists n). congruence. }
    unfold bids_get in Ea. rewrite I1, I2, I3 in Ea. cbv zeta in Ea. cbn [is_max] in Ea.
    assert (Ec : (negb (2 ^ 31 =? 0) && (2 ^ 31 <=? lenN seen + 1))%bool = false).
    { change (negb (2 ^ 31 =? 0)) with true. cbn [andb]. apply N.leb_gt. change (2 ^ 31) with 2147483648. lia. }
    rewrite Ec in Ea. cbn [bind] in Ea.
    assert (gid = lenN seen + 1 /\ hosts = dset (d_hosts p) (norm_host x) (lenN seen + 1) /\ ids = mk_ids [] (lenN seen + 1) (2 ^ 31)) as (-> & -> & ->) by (repeat split; congruence).
    assert (Eq : lenN seen + 1 = N.of_nat (S (length seen))) by (unfold lenN; lia).
    split; [exact Hx|]. split; [exists (length seen); split; [rewrite nth_error_app2, Nat.sub_diag by lia; reflexivity|exact Eq]|].
    split; cbn [is_ids is_max is_next]; [reflexivity|reflexivity| | | |].
    + unfold lenN. rewrite app_length. cbn [length]. lia.
    + unfold lenN in *. rewrite app_length. cbn [length]. lia.
    + intros y g. rewrite dget_dset. destruct (str_eqb_spec y (norm_host x)) as [->|Ne].
      * split.
        -- intros E'. exists (length seen). split; [rewrite nth_error_app2, Nat.sub_diag by lia; reflexivity|congruence].
        -- intros (n & En & ->). f_equal. rewrite Eq. do 2 f_equal. destruct (lt_dec n (length seen)) as [L|L].
           ++ rewrite nth_error_app1 in En by exact L. exfalso. apply Hx. eapply nth_error_In, En.
           ++ rewrite nth_error_app2 in En by lia. destruct (n - length seen)%nat as [|k] eqn:Ek; [lia|]. cbn [nth_error] in En. destruct k; discriminate.
      * rewrite I5. split; intros (n & En & ->); exists n; (split; [|reflexivity]).
        -- rewrite nth_error_app1; [exact En|]. apply nth_error_Some. congruence.
        -- destruct (lt_dec n (length seen)) as [L|L]; [now rewrite nth_error_app1 in En by exact L|]. rewrite nth_error_app2 in En by lia.
           destruct (n - length seen)%nat as [|k]; cbn [nth_error] in En; [congruence|destruct k; discriminate].
    + apply Permutation_NoDup with (l := norm_host x :: seen); [apply Permutation_cons_append|now constructor].
Qed.
Lemma site_of_app seen s x g : site_of seen x g -> site_of (seen ++ s) x g.
Proof. intros (n & En & ->). exists n. split; [|reflexivity]. rewrite nth_error_app1; [exact En|]. apply nth_error_Some. congruence. Qed.
Lemma toldg_inv strip has_encoder enc is_request h p xs gs : db_coder is_request = Ok h -> toldg strip has_encoder enc h p xs gs ->
  exists seen, first_seen (map norm_host xs) seen /\ sinv seen (d_hosts p) (d_ids p) /\ Forall2 (site_of seen) xs gs.
Proof.
  intros Eh H. induction H as [|p xs gs ord headers x p1 blob g H IH Hs E N9].
  - exists []. split; [constructor|]. split; [|constructor]. split; try reflexivity; [discriminate| |constructor]. intros x g. cbn. split; [discriminate|]. intros ([|n] & En & _); discriminate.
  - destruct IH as (seen & F & I & S). destruct (compress_site strip has_encoder enc is_request h ord p headers x p1 blob seen Eh Hs I E) as (g' & N9' & D).
    assert (g' = g) by congruence. subst g'. rewrite map_app. cbn [map]. destruct D as [(Hx & Sx & I')|(Hx & Sx & I')].
    + exists seen. split; [now apply seen_old|]. split; [exact I'|]. apply Forall2_app; [exact S|]. now repeat constructor.
    + exists (seen ++ [norm_host x]). split; [now apply seen_new|]. split; [exact I'|]. apply Forall2_app; [|now repeat constructor].
      clear - S. induction S as [|a b xs gs H N IH]; constructor; [now apply site_of_app|exact IH].
Qed.

Lemma find_kv_key ring k v n x : find_kv ring k v = (Some n, x) -> exists e, In e ring /\ q_key e = k /\ q_seq e = n.
Proof.
  unfold find_kv. destruct (find _ _) as [e|] eqn:Ef; [|discriminate]. intros E. apply find_some in Ef. destruct Ef as [Hi Hk]. exists e. split; [|split; [|congruence]].
  - apply in_rev in Hi. destruct ring; [destruct Hi|now right].
  - now destruct (str_eqb_spec (q_key e) k).
Qed.
Lemma find_idx_key c k v n : find_idx c k v = (Some n, None) -> exists e, (In e static \/ In e (r_ring (k_lru c))) /\ q_key e = k /\ q_seq e = n.
Proof.
  unfold find_idx. destruct (find_kv (r_ring (k_lru c)) k v) as [[a|] [b|]] eqn:E1; try discriminate; intros E.
  - apply find_kv_key in E1 as (e & H & H'). assert (a = n) by congruence. subst. exists e. tauto.
  - apply find_kv_key in E as (e & H & H'). exists e. tauto.
  - apply find_kv_key in E as (e & H & H'). exists e. tauto.
Qed.
Lemma kv_lru ord gid c i k w c1 i1 : process_kv ord gid c i k w = Ok (c1, i1) -> k_lru c1 = k_lru c.
Proof.
  intros E. unfold process_kv in E. destruct (gs_at (k_groups c) gid) as [g|]; [|discriminate]. cbn [bind] in E. destruct (has_kv c k w (ord (g_idxs g))) as [[n|]|]; cbn [bind] in E; [| |discriminate].
  - assert (c1 = mk_code (k_lru c) (gs_set (k_groups c) gid (g_touch g n))) by congruence. now subst.
  - destruct (find_idx c k w) as [[n|] [m|]]; try (destruct (g_has g m)); try (assert (c1 = c) by congruence; now subst);
      (assert (c1 = mk_code (k_lru c) (gs_set (k_groups c) gid (g_touch g m))) by congruence; now subst).
Qed.
Lemma kv_clone ord gid c i k w c1 i1 : process_kv ord gid c i k w = Ok (c1, i1) ->
  n_clone i1 = n_clone i \/ exists n, n_clone i1 = n_clone i ++ [(n, w)] /\ exists e, (In e static \/ In e (r_ring (k_lru c))) /\ q_key e = k /\ q_seq e = n.
Proof.
  intros E. unfold process_kv in E. destruct (gs_at (k_groups c) gid) as [g|]; [|discriminate]. cbn [bind] in E. destruct (has_kv c k w (ord (g_idxs g))) as [[n|]|]; cbn [bind] in E; [| |discriminate].
  - left. congruence.
  - destruct (find_idx c k w) as [[n|] [m|]] eqn:Ef.
    + left. destruct (g_has g m); [congruence|]. assert (i1 = mk_instrs (n_toggl i ++ [m]) (n_clone i) (n_kvsto i)) by congruence. now subst.
    + right. exists n. assert (i1 = mk_instrs (n_toggl i) (n_clone i ++ [(n, w)]) (n_kvsto i)) by congruence. subst. split; [reflexivity|]. exact (find_idx_key _ _ _ _ Ef).
    + left. destruct (g_has g m); [congruence|]. assert (i1 = mk_instrs (n_toggl i ++ [m]) (n_clone i) (n_kvsto i)) by congruence. now subst.
    + left. assert (i1 = mk_instrs (n_toggl i) (n_clone i) (n_kvsto i ++ [(k, w)])) by congruence. now subst.
Qed.
Lemma new_for_lru has_encoder c d ps vs : k_lru d = k_lru c -> new_for has_encoder c ps vs -> new_for has_encoder d ps vs.
Proof. intros E H. induction H as [|p ps vs H IH|k v n f ps vs He Hf H IH]; [constructor|now apply new_skip|]. apply new_take; [now rewrite E|exact Hf|exact IH]. Qed.
Lemma clone_flags_are has_encoder ord enc gid pairs : forall c i fs c' i', clone_flags has_encoder ord enc gid c i pairs = Ok fs -> process_all ord enc gid c i pairs = Ok (c', i') ->
  exists ws new, Forall2 (fun p q => fst p = fst q /\ enc (fst p) (snd p) = Ok (snd q)) pairs ws /\ n_clone i' = n_clone i ++ new /\ length fs = length new /\ new_for has_encoder c ws (combine new fs).
Proof.
  induction pairs as [|[k v] r IH]; intros c i fs c' i' E P; cbn [clone_flags process_all] in E, P.
  - assert (fs = [] /\ i' = i) as [-> ->] by (split; congruence). exists [], []. rewrite app_nil_r. repeat split; constructor.
  - destruct (enc k v) as [w|] eqn:Ew; [|discriminate]. cbn [bind] in E, P. destruct (process_kv ord gid c i k w) as [[c1 i1]|] eqn:E1; [|discriminate]. cbn [bind] in E, P.
    destruct (clone_flags has_encoder ord enc gid c1 i1 r) as [fs1|] eqn:Ef; [|discriminate]. cbn [bind] in E. destruct (IH c1 i1 fs1 c' i' Ef P) as (ws & new & F & En & Ln & Nw).
    apply (new_for_lru _ _ c) in Nw; [|symmetry; exact (kv_lru _ _ _ _ _ _ _ _ E1)].
    destruct (kv_clone _ _ _ _ _ _ _ _ E1) as [Ec|(n & Ec & He)]; rewrite Ec in *.
    + rewrite Nat.ltb_irrefl in E. assert (fs = fs1) by congruence. subst fs1. exists ((k, w) :: ws), new. split; [constructor; [now split|exact F]|]. split; [exact En|]. split; [exact Ln|]. now apply new_skip.
    + rewrite app_length in E. cbn [length] in E. destruct (Nat.ltb_spec (length (n_clone i)) (length (n_clone i) + 1)); [|lia]. assert (fs = negb (has_encoder k) :: fs1) by congruence. subst fs.
      exists ((k, w) :: ws), ((n, w) :: new). split; [constructor; [now split|exact F]|]. split; [now rewrite En, <- app_assoc|]. split; [cbn [length]; now f_equal|].
      cbn [combine]. apply new_take; [exact He|now destruct (has_encoder k)|exact Nw].
Qed.
Lemma map_fst_combine {A B} (l : list A) : forall m : list B, length m = length l -> map fst (combine l m) = l.
Proof. induction l as [|x l IH]; intros [|y m] H; try discriminate; [reflexivity|]. cbn [combine map fst]. f_equal. apply IH. cbn in H. lia. Qed.

(** ** C124 *)

(** A message of a session: its octets are those of the operations that the codec makes for the
    headers that are left of it, for the group of its site. *)
Theorem C124_message : forall strip has_encoder enc is_request h p xs gs ord headers x p1 blob, db_coder is_request = Ok h -> toldg strip has_encoder enc h p xs gs -> sendable strip enc headers ->
  dproc_compress strip has_encoder ord enc h p headers x = Ok (p1, blob) ->
  exists gid i ws values, make_operations ord enc gid (d_code p) (strip headers) = Ok (d_code p1, i) /\ nth_error blob 8 = Some gid /\
    Forall2 (fun p q => fst p = fst q /\ enc (fst p) (snd p) = Ok (snd q)) (split_headers (strip headers)) ws /\
    map fst values = n_clone i /\ new_for has_encoder (d_code p) ws values /\
    (NoDup (n_toggl i) -> exists singles ranges, arranged (n_toggl i) singles ranges /\
       writteng h gid singles ranges values (map (fun q => (q, negb (has_encoder (fst q)))) (n_kvsto i)) blob).
Proof.
  intros strip has_encoder enc is_request h p xs gs ord headers x p1 blob Eh Ht Hs E. unfold dproc_compress in E. cbv zeta in E. apply bind_ok in E as ([[gid hosts] ids] & Ea & E).
  destruct (gs_make (k_groups (d_code p)) gid) as [gs0 g0] eqn:Eg. apply bind_ok in E as (fs & Ef & E). apply bind_ok in E as ([c i] & Em & E). apply bind_ok in E as (b & Eb & E).
  assert (p1 = mk_dproc c hosts ids /\ b = blob) as [-> ->] by (split; congruence). clear E. cbn [d_code].
  destruct (make_bytes _ _ _ _ _ _ _ Hs Em) as [B1 B2].
  assert (Hk : Forall (fun c => is_bytes (fst (fst c)) /\ is_bytes (snd (fst c))) (DB_Model.n_kvsto (with_flags has_encoder fs i))).
  { cbn [with_flags DB_Model.n_kvsto]. apply Forall_map. eapply Forall_impl; [|exact B2]. now intros [k v]. }
  destruct (real_ops2_ninth is_request h (with_flags has_encoder fs i) gid blob Eh (combine_bytes _ fs B1) Hk Eb) as [Lg N9].
  pose proof Em as Em'. unfold make_operations in Em'. rewrite Eg in Em'. apply bind_ok in Em' as ([c1 i1] & E1 & E). apply bind_ok in E as (c2 & E2 & E).
  destruct (gs_make (k_groups c2) gid) as [gs' g1]. apply bind_ok in E as (c3 & E3 & E). apply bind_ok in E as (g & E4 & E). apply bind_ok in E as (c4 & E5 & E).
  assert (Ec : n_clone i = n_clone i1) by (assert (i = mk_instrs (n_toggl i1 ++ ord (g_old g1)) (n_clone i1) (n_kvsto i1)) by congruence; now subst).
  destruct (clone_flags_are _ _ _ _ _ _ _ _ _ _ Ef E1) as (ws & new & F & En & Ln & Nw). cbn [n_clone app] in En. rewrite <- Ec in En. rewrite <- En in *.
  exists gid, i, ws, (combine (n_clone i) fs). split; [exact Em|]. split; [exact N9|]. split; [exact F|]. split; [now apply map_fst_combine|]. split; [apply (new_for_lru _ _ (d_code p)) in Nw; [exact Nw|reflexivity]|].
  intros Hn. destruct (coder_words is_request h Eh) as (cw & G & He).
  assert (Hi : instrs_ok (with_flags has_encoder fs i)).
  { unfold real_ops2, serialize2 in Eb. destruct (put_instrs h (with_flags has_encoder fs i)) as [pb|] eqn:Ep; [|discriminate]. exact (put_instrs_fit h cw G He (with_flags has_encoder fs i) pb (combine_bytes _ fs B1) Hk Ep). }
  apply (C124_octets is_request h _ gid blob Eh Hi Hn Lg) in Eb as (singles & ranges & Ar & W). exists singles, ranges. split; [exact Ar|].
  cbn [with_flags DB_Model.n_clone DB_Model.n_kvsto] in W. rewrite (map_ext (fun '(k, v) => (k, v, negb (has_encoder k))) (fun q => (q, negb (has_encoder (fst q)))) ltac:(now intros [k v])) in W. exact W.
Qed.
Print Assumptions C124_message.

(** Sites are numbered from 1 as they are first heard of, and there are at most 255 of them. *)
Theorem C124_sites : forall strip has_encoder enc is_request h p xs gs seen, db_coder is_request = Ok h -> toldg strip has_encoder enc h p xs gs ->
  first_seen (map norm_host xs) seen ->
  (length seen <= 255)%nat /\ Forall2 (fun x g => exists n, nth_error seen n = Some (norm_host x) /\ g = N.of_nat (S n)) xs gs.
Proof.
  intros strip has_encoder enc is_request h p xs gs seen Eh H F. destruct (toldg_inv _ _ _ _ _ _ _ _ Eh H) as (s & F' & I & S). rewrite (first_seen_det _ _ F _ F'). split; [|exact S].
  pose proof (si_len _ _ _ I) as L. unfold lenN in L. lia.
Qed.
Print Assumptions C124_sites.

(** A message to one more site than 255 raises, whatever it is. *)
Theorem C124_256th : forall strip has_encoder enc is_request h p xs gs seen ord headers x, db_coder is_request = Ok h -> toldg strip has_encoder enc h p xs gs ->
  first_seen (map norm_host xs) seen -> length seen = 255%nat -> ~ In (norm_host x) seen -> sendable strip enc headers ->
  exists e, dproc_compress strip has_encoder ord enc h p headers x = Err e.
Proof.
  intros strip has_encoder enc is_request h p xs gs seen ord headers x Eh H F L Hx Hs. destruct (dproc_compress strip has_encoder ord enc h p headers x) as [[p1 blob]|e] eqn:E; [|now exists e]. exfalso.
  destruct (toldg_inv _ _ _ _ _ _ _ _ Eh H) as (s & F' & I & S). assert (s = seen) by (exact (first_seen_det _ _ F' _ F)). subst s.
  destruct (compress_site strip has_encoder enc is_request h ord p headers x p1 blob seen Eh Hs I E) as (g & N9 & [(C & _)|(_ & _ & I')]); [contradiction|].
  pose proof (si_len _ _ _ I') as L'. unfold lenN in L'. rewrite app_length in L'. cbn [length] in L'. lia.
Qed.
Print Assumptions C124_256th.

(** Messages in turn: what is left and the octets of each. *)
Fixpoint octets_in_turn (h : huffman) (p : proc) (ms : list (list (str * str) * str)) : res (proc * list str) :=
  match ms with
  | [] => Ok (p, [])
  | (m, x) :: r =>
      let* (p1, blob) := dproc_compress (fun m => m) (str_eqb (lit "cookie")) (fun l => l) (fun _ v => Ok v) h p m x in
      let* (p2, bs) := octets_in_turn h p1 r in
      Ok (p2, blob :: bs)
  end.
Definition a_message : list (str * str) := [(lit ":scheme", lit "https"); (lit ":path", lit "/a"); (lit "cookie", lit "b; a"); (lit "x-own", lit "7")].
(** Two sites: the message to each of them, and one with less to another host of the first,
    which turns an entry of that site's group off. *)
Example C124_case : exists h, db_coder true = Ok h /\
  (let* (_, bs) := octets_in_turn h dproc_new [(a_message, lit "www.a.com"); (a_message, lit "b.org"); (tl a_message, lit "cdn.a.com")] in Ok bs) =
  Ok [[0; 25; 1; 128; 0; 4; 210; 8; 1] ++ [1; 0; 0; 1] ++ [3; 2] ++ [0; 3; 238; 136] ++ [0; 5] ++ lit "a" ++ [0; 5] ++ lit "b" ++ [4; 0; 84; 124; 61; 172; 128; 124; 128];
      [0; 15; 1; 128; 0; 4; 210; 8; 2] ++ [2; 1; 0; 70; 0; 69; 0; 73; 0; 72] ++ [3; 0; 0; 72] ++ lit "a";
      [0; 4; 1; 128; 0; 4; 210; 8; 1] ++ [1; 0; 0; 1]].
Proof.
  destruct C51_nontrivial as [(h & Eh) _]. exists h. split; [exact Eh|].
  assert (X : (let* h := d1_huffman d1_request_table in let* (_, bs) := octets_in_turn h dproc_new [(a_message, lit "www.a.com"); (a_message, lit "b.org"); (tl a_message, lit "cdn.a.com")] in Ok bs) =
    Ok [[0; 25; 1; 128; 0; 4; 210; 8; 1] ++ [1; 0; 0; 1] ++ [3; 2] ++ [0; 3; 238; 136] ++ [0; 5] ++ lit "a" ++ [0; 5] ++ lit "b" ++ [4; 0; 84; 124; 61; 172; 128; 124; 128];
      [0; 15; 1; 128; 0; 4; 210; 8; 2] ++ [2; 1; 0; 70; 0; 69; 0; 73; 0; 72] ++ [3; 0; 0; 72] ++ lit "a";
      [0; 4; 1; 128; 0; 4; 210; 8; 1] ++ [1; 0; 0; 1]]) by (vm_compute; reflexivity).
  rewrite Eh in X. cbn [bind] in X. exact X.
Qed.

(** Messages without headers to 255 sites, and one to another site. *)
Definition a_site (n : nat) : str := [97 + N.of_nat n / 16; 97 + N.of_nat n mod 16; 46; 99].
Lemma in_turn_told h ms : Forall (fun m => fst m = []) ms -> forall p xs gs p' bs, toldg (fun m => m) (str_eqb (lit "cookie")) (fun _ v => Ok v) h p xs gs -> octets_in_turn h p ms = Ok (p', bs) ->
  forallb (fun b => (8 <? length b)%nat) bs = true ->
  toldg (fun m => m) (str_eqb (lit "cookie")) (fun _ v => Ok v) h p' (xs ++ map snd ms) (gs ++ map (fun b => nth 8 b 0) bs).
Proof.
  induction 1 as [|[m x] ms Hm HF IH]; intros p xs gs p' bs Ht E Hl; cbn [octets_in_turn] in E.
  - assert (p' = p /\ bs = []) as [-> ->] by (split; congruence). cbn [map]. now rewrite !app_nil_r.
  - cbn [fst] in Hm. subst m. apply bind_ok in E as ([p1 b] & E1 & E). apply bind_ok in E as ([p2 bs'] & E2 & E). assert (p' = p2 /\ bs = b :: bs') as [-> ->] by (split; congruence).
    cbn [forallb] in Hl. apply andb_prop in Hl. destruct Hl as [Hl1 Hl2]. apply Nat.ltb_lt in Hl1.
    assert (T : toldg (fun m => m) (str_eqb (lit "cookie")) (fun _ v => Ok v) h p1 (xs ++ [x]) (gs ++ [nth 8 b 0])).
    { eapply toldg_step; [exact Ht| |exact E1|now apply nth_error_nth']. intros k v []. }
    pose proof (IH p1 _ _ p2 bs' T E2 Hl2) as X. cbn [map snd]. rewrite <- !app_assoc in X. exact X.
Qed.
Lemma seen_all xs : NoDup xs -> first_seen xs xs.
Proof.
  induction xs as [|x xs IH] using rev_ind; intros H; [constructor|]. pose proof (NoDup_remove_2 xs [] x H) as H2. pose proof (NoDup_remove_1 xs [] x H) as H1.
  rewrite app_nil_r in H1, H2. apply seen_new; [now apply IH|exact H2].
Qed.
Definition site_messages : list (list (str * str) * str) := map (fun n => ([], a_site n)) (seq 0 255).
Definition no_group (r : res (proc * str)) : bool := match r with Err StructError => true | _ => false end.
Definition one_more (h : huffman) (p : proc) : res (proc * str) :=
  dproc_compress (fun m => m) (str_eqb (lit "cookie")) (fun l => l) (fun _ v => Ok v) h p [] (a_site 255).
Definition limit_run (r : res huffman) (ms : list (list (str * str) * str)) : res (bool * bool) :=
  let* h := r in
  let* (p, bs) := octets_in_turn h dproc_new ms in
  Ok (forallb (fun b => (8 <? length b)%nat) bs, no_group (one_more h p)).
Lemma limit_parts h ms : limit_run (Ok h) ms = Ok (true, true) ->
  exists p bs, octets_in_turn h dproc_new ms = Ok (p, bs) /\ forallb (fun b => (8 <? length b)%nat) bs = true /\ no_group (one_more h p) = true.
Proof. unfold limit_run. cbn [bind]. intros X. apply bind_ok in X as ([p bs] & E & X). exists p, bs. split; [exact E|]. split; congruence. Qed.
Lemma limit_run_ok : limit_run (db_coder true) site_messages = Ok (true, true).
Proof. vm_compute. reflexivity. Qed.
Lemma site_hosts : map snd site_messages = map a_site (seq 0 255).
Proof. unfold site_messages. now rewrite map_map. Qed.
Lemma sites_kept : map norm_host (map a_site (seq 0 255)) = map a_site (seq 0 255).
Proof. vm_compute. reflexivity. Qed.
Lemma sites_256 : map a_site (seq 0 256) = map a_site (seq 0 255) ++ [a_site 255].
Proof. vm_compute. reflexivity. Qed.
Definition site_number (s : str) : N := match s with [a; b; _; _] => (a - 97) * 16 + (b - 97) | _ => 0 end.
Lemma site_numbers : map site_number (map a_site (seq 0 256)) = map N.of_nat (seq 0 256).
Proof. vm_compute. reflexivity. Qed.
Lemma sites_differ : NoDup (map a_site (seq 0 255) ++ [a_site 255]).
Proof.
  rewrite <- sites_256. apply (NoDup_map_inv site_number). rewrite site_numbers. apply FinFun.Injective_map_NoDup; [intros a b; apply Nat2N.inj|apply seq_NoDup].
Qed.
Lemma limit_split h : db_coder true = Ok h -> exists p bs, octets_in_turn h dproc_new site_messages = Ok (p, bs) /\ forallb (fun b => (8 <? length b)%nat) bs = true /\ no_group (one_more h p) = true.
Proof.
  intros Eh. apply limit_parts. rewrite <- Eh. exact limit_run_ok.
Qed.
Example C124_limit_case : exists h p gs seen, db_coder true = Ok h /\
  toldg (fun m => m) (str_eqb (lit "cookie")) (fun _ v => Ok v) h p (map a_site (seq 0 255)) gs /\ first_seen (map norm_host (map a_site (seq 0 255))) seen /\ length seen = 255%nat /\
  ~ In (norm_host (a_site 255)) seen /\ dproc_compress (fun m => m) (str_eqb (lit "cookie")) (fun l => l) (fun _ v => Ok v) h p [] (a_site 255) = Err StructError.
Proof.
  destruct C51_nontrivial as [(h & Eh) _]. destruct (limit_split h Eh) as (p & bs & E & X1 & X2).
  assert (Hm : Forall (fun m => fst m = []) site_messages) by (apply Forall_map, Forall_forall; reflexivity).
  pose proof (in_turn_told h site_messages Hm _ _ _ _ _ (toldg_new _ _ _ h) E X1) as T. rewrite site_hosts in T.
  pose proof (NoDup_remove_1 _ _ _ sites_differ) as H1. pose proof (NoDup_remove_2 _ _ _ sites_differ) as H2. rewrite app_nil_r in H1, H2.
  exists h, p, ([] ++ map (fun b => nth 8 b 0) bs), (map a_site (seq 0 255)). split; [exact Eh|]. split; [exact T|]. split; [rewrite sites_kept; exact (seen_all _ H1)|].
  split; [now rewrite map_length, seq_length|]. split; [exact H2|].
  fold (one_more h p). destruct (one_more h p) as [|[]]; cbn [no_group] in X2; congruence.
Qed.
