(** * Property C121, second part: groups of delta's and delta2's messages. *)
From Coq Require Import String List NArith ZArith Bool Arith Lia ZifyN ZifyNat Permutation Sorted.
From Verif Require Import PyBase NBits Bits BB_Model BB_Spec BB_Proofs Prop_BB BB_Read D2Huff_Model D2Huff_Proofs D2Wire_Proofs D2Wire_Frame Prop_D2HuffOpt
  PyStr Lib_Model Lib_Spec Lib_Proofs Small_Model D2Store_Model D2Code_Model Prop_D2Ranges D2Code_Sets D2Code_Exec D2Code_Make D2Code_Round D2Code_Says Prop_D2Bits
  D1Huff_Model D1Huff_Proofs Prop_D1Huff D1Wire_Model D1Wire_Proofs D1Wire_Frame Prop_D1Wire D1Code_Model D1Code_Inv D1Code_Store D1Code_Exec D1Code_Round Prop_D1Code Prop_D1Names D1Code_Choice Prop_D1Bits Prop_D2Huff D2Wire_Model Prop_D2Wire Prop_D2Code Host_Model Prop_Host PyStr.
Import ListNotations.
Open Scope N_scope.
Open Scope py_scope.

(** ** Specification *)

(** The names in the order in which they are first heard of. *)
Inductive first_seen : list str -> list str -> Prop :=
| seen_none : first_seen [] []
| seen_old xs seen x : first_seen xs seen -> In x seen -> first_seen (xs ++ [x]) seen
| seen_new xs seen x : first_seen xs seen -> ~ In x seen -> first_seen (xs ++ [x]) (seen ++ [x]).

(** Messages to hosts in turn, each compressed and decompressed by one processor, and the
    ninth octet of what was sent for each: delta2's and delta's. *)
Inductive told (h : huffman) (o : options) : processor -> list str -> list N -> Prop :=
| told_new p : proc_new o = Ok p -> told h o p [] []
| told_step p xs gs m p1 blob p2 out g : told h o p xs gs -> call_ok m ->
    proc_compress norm_host h (call_sender m) p (call_headers m) (call_host m) = Ok (p1, blob) -> lenN blob <= 65536 ->
    proc_decompress h (call_receiver m) p1 blob = Ok (p2, out) -> nth_error blob 8 = Some g -> told h o p2 (xs ++ [call_host m]) (gs ++ [g]).
Inductive told1 (dk : str) (iter : list gop -> list N) (h : huffman) (maxb maxv : Z) : processor1 -> list str -> list N -> Prop :=
| told1_new : told1 dk iter h maxb maxv (proc1_new dk maxb maxv) [] []
| told1_step p xs gs m p1 blob p2 out g : told1 dk iter h maxb maxv p xs gs -> call1_ok dk m ->
    proc1_compress dk iter norm_host h (c1_sender m) p (c1_headers m) (c1_host m) = Ok (p1, blob) -> lenN blob <= 65536 ->
    proc1_decompress dk iter h (c1_receiver m) p1 blob = Ok (p2, out) -> nth_error blob 8 = Some g -> told1 dk iter h maxb maxv p2 (xs ++ [c1_host m]) (gs ++ [g]).

(** Names are numbered from 1 as they are first heard of, starting again with 0 after 254. *)
Definition numbered (seen : list str) (x : str) (g : N) : Prop := exists n, nth_error seen n = Some (norm_host x) /\ g = N.of_nat (S n) mod 255.

(** ** Proofs *)

Definition assign (hosts : dict N) (ids : idstore) (x : str) : N * dict N * idstore :=
  match dget hosts x with
  | Some g => (g, hosts, ids)
  | None => let (g, ids) := ids_get (fun _ => 0%nat) ids in (g, dset hosts x g, ids)
  end.
Record ginv (seen : list str) (hosts : dict N) (ids : idstore) : Prop := {
  gi_ids : is_ids ids = [];
  gi_max : is_max ids = 255;
  gi_next : is_next ids = lenN seen mod 255;
  gi_nodup : NoDup seen;
  gi_hosts : forall x g, dget hosts x = Some g <-> exists n, nth_error seen n = Some x /\ g = N.of_nat (S n) mod 255 }.

Lemma assign_old seen hosts ids x : ginv seen hosts ids -> In x seen -> exists n, nth_error seen n = Some x /\ assign hosts ids x = (N.of_nat (S n) mod 255, hosts, ids).
Proof.
  intros [_ _ _ _ H] Hx. destruct (In_nth_error _ _ Hx) as (n & En). exists n. split; [exact En|]. unfold assign.
  assert (dget hosts x = Some (N.of_nat (S n) mod 255)) as ->; [|reflexivity]. apply H. now exists n.
Qed.
Lemma assign_new seen hosts ids x : ginv seen hosts ids -> ~ In x seen ->
  exists hosts' ids', assign hosts ids x = (N.of_nat (S (length seen)) mod 255, hosts', ids') /\ ginv (seen ++ [x]) hosts' ids'.
Proof.
  intros [I1 I2 I3 I4 H] Hx. unfold assign. destruct (dget hosts x) as [g|] eqn:E.
  { apply H in E. destruct E as (n & En & _). exfalso. apply Hx. eapply nth_error_In, En. }
  unfold ids_get. rewrite I1, I2, I3. change (negb (255 =? 0)) with true. cbn [andb].
  assert (Eg : (if 255 <=? lenN seen mod 255 + 1 then 0 else lenN seen mod 255 + 1) = N.of_nat (S (length seen)) mod 255).
  { unfold lenN. pose proof (N.mod_lt (N.of_nat (length seen)) 255 ltac:(discriminate)). replace (N.of_nat (S (length seen))) with (N.of_nat (length seen) + 1) by lia.
    rewrite <- N.add_mod_idemp_l by discriminate. destruct (N.leb_spec 255 (N.of_nat (length seen) mod 255 + 1)).
    - replace (N.of_nat (length seen) mod 255 + 1) with 255 by lia. reflexivity.
    - symmetry. now apply N.mod_small. }
  rewrite Eg. eexists _, _. split; [reflexivity|]. split; cbn [is_ids is_max is_next]; [reflexivity|reflexivity| | |].
  - unfold lenN. rewrite app_length. cbn [length]. f_equal. lia.
  - apply Permutation_NoDup with (l := x :: seen); [apply Permutation_cons_append|now constructor].
  - intros y g. rewrite dget_dset. destruct (str_eqb_spec y x) as [->|Ne].
    + split.
      * intros E'. exists (length seen). split; [rewrite nth_error_app2, Nat.sub_diag by lia; reflexivity|congruence].
      * intros (n & En & ->). f_equal. f_equal. f_equal. f_equal. destruct (lt_dec n (length seen)) as [L|L].
        -- rewrite nth_error_app1 in En by exact L. exfalso. apply Hx. eapply nth_error_In, En.
        -- rewrite nth_error_app2 in En by lia. destruct (n - length seen)%nat as [|k] eqn:Ek; [lia|]. cbn [nth_error] in En. destruct k; discriminate.
    + rewrite H. split; intros (n & En & ->); exists n; (split; [|reflexivity]).
      * rewrite nth_error_app1; [exact En|]. apply nth_error_Some. congruence.
      * destruct (lt_dec n (length seen)) as [L|L]; [now rewrite nth_error_app1 in En by exact L|]. rewrite nth_error_app2 in En by lia.
        destruct (n - length seen)%nat as [|k]; cbn [nth_error] in En; [congruence|destruct k; discriminate].
Qed.
Lemma numbered_app seen s x g : numbered seen x g -> numbered (seen ++ s) x g.
Proof. intros (n & En & ->). exists n. split; [|reflexivity]. rewrite nth_error_app1; [exact En|]. apply nth_error_Some. congruence. Qed.

(** One more message. *)
Lemma step_seen xs gs seen hosts ids x g hosts' ids' : first_seen (map norm_host xs) seen -> ginv seen hosts ids -> Forall2 (numbered seen) xs gs ->
  assign hosts ids (norm_host x) = (g, hosts', ids') ->
  exists seen', first_seen (map norm_host (xs ++ [x])) seen' /\ ginv seen' hosts' ids' /\ Forall2 (numbered seen') (xs ++ [x]) (gs ++ [g]).
Proof.
  intros F G N E. rewrite map_app. cbn [map]. destruct (in_dec (list_eq_dec N.eq_dec) (norm_host x) seen) as [Hx|Hx].
  - exists seen. split; [now apply seen_old|]. destruct (assign_old seen hosts ids _ G Hx) as (n & En & Ea). rewrite Ea in E.
    assert (g = N.of_nat (S n) mod 255 /\ hosts' = hosts /\ ids' = ids) as (-> & -> & ->) by (repeat split; congruence). split; [exact G|].
    apply Forall2_app; [exact N|]. constructor; [|constructor]. now exists n.
  - exists (seen ++ [norm_host x]). split; [now apply seen_new|]. destruct (assign_new seen hosts ids _ G Hx) as (hs & is & Ea & G'). rewrite Ea in E.
    assert (g = N.of_nat (S (length seen)) mod 255 /\ hosts' = hs /\ ids' = is) as (-> & -> & ->) by (repeat split; congruence). split; [exact G'|].
    apply Forall2_app; [|constructor; [|constructor]].
    + clear - N. induction N as [|a b xs gs H N IH]; constructor; [now apply numbered_app|exact IH].
    + exists (length seen). split; [rewrite nth_error_app2, Nat.sub_diag by lia; reflexivity|reflexivity].
Qed.
Lemma ginv_new : ginv [] [] (ids_new 255).
Proof. split; try reflexivity; [constructor|]. intros x g. cbn [dget]. split; [discriminate|]. intros ([|n] & En & _); discriminate. Qed.
Lemma first_seen_det xs a : first_seen xs a -> forall b, first_seen xs b -> a = b.
Proof.
  induction 1 as [|xs seen x H IH Hx|xs seen x H IH Hx]; intros b Hb; inversion Hb as [E|ys s y H' Hy E|ys s y H' Hy E]; subst;
    try (now destruct xs); try (now destruct ys); try reflexivity; apply app_inj_tail in E; destruct E as [-> ->]; rewrite (IH _ H') in *; (reflexivity || contradiction).
Qed.

Lemma nine2 h w is gid blob : written h w is gid blob -> nth_error blob 8 = Some gid.
Proof. intros (bs & k & p & _ & _ & _ & _ & F). destruct F; reflexivity. Qed.
Lemma nine1 h ops gid blob : written1 h ops gid blob -> nth_error blob 8 = Some gid.
Proof. intros (p & _ & F). destruct F; reflexivity. Qed.

Lemma told_inv h o p xs gs : coder h -> told h o p xs gs -> pinv p /\ exists seen, first_seen (map norm_host xs) seen /\ ginv seen (p_hosts p) (p_ids p) /\ Forall2 (numbered seen) xs gs.
Proof.
  intros Hh H. induction H as [p E|p xs gs m p1 blob p2 out g H (IH & seen & F & G & N) Hm E1 Hl E2 Hg].
  - destruct (proc_new_ok o p E) as (k & K & ->). split; [split; cbn [p_comp p_decomp p_hosts p_ids]; [exact K|reflexivity|discriminate|split; reflexivity]|].
    exists []. split; [constructor|]. split; [apply ginv_new|constructor].
  - destruct (call_round norm_host h p m Hh IH Hm) as (p1' & blob' & F1 & _ & R). assert (p1' = p1 /\ blob' = blob) as [-> ->] by (split; congruence).
    destruct (R Hl) as (p2' & out' & F2 & I & _). assert (p2' = p2) as -> by congruence. split; [exact I|].
    unfold proc_compress in E1. fold (assign (p_hosts p) (p_ids p) (norm_host (call_host m))) in E1. destruct (assign (p_hosts p) (p_ids p) (norm_host (call_host m))) as [[g' hosts'] ids'] eqn:Ea.
    destruct (step_seen xs gs seen _ _ (call_host m) g' hosts' ids' F G N Ea) as (seen' & F' & G' & N').
    destruct (compress_group h (call_sender m) (p_comp p) (call_headers m) g') as [[c b]|] eqn:Ec; cbn [bind] in E1; [|discriminate].
    assert (b = blob) by congruence. subst b. assert (Ep : p1 = mk_proc c (p_decomp p) hosts' ids') by congruence. subst p1.
    unfold proc_decompress in E2. cbn [p_decomp p_comp p_hosts p_ids] in E2. destruct (real_ops_execute h (call_receiver m) (p_decomp p) blob) as [[d o2]|]; cbn [bind] in E2; [|discriminate].
    assert (Ep2 : p2 = mk_proc c d hosts' ids') by congruence. subst p2. cbn [p_hosts p_ids] in *. exists seen'. split; [exact F'|]. split; [exact G'|].
    assert (g = g') as ->; [|exact N'].
    assert (Hlt : g' < 256).
    { clear - Ea IH. destruct IH as [_ _ Hg [I1 I2]]. unfold assign in Ea. destruct (dget (p_hosts p) _) as [x|] eqn:Ed; [assert (x = g') by congruence; subst; eauto|].
      unfold ids_get in Ea. rewrite I1, I2 in Ea. change (negb (255 =? 0)) with true in Ea. cbn [andb] in Ea. destruct (N.leb_spec 255 (is_next (p_ids p) + 1));
        match type of Ea with (?x, _, _) = _ => assert (g' = x) by congruence end; lia. }
    destruct IH as [K _ _ _]. destruct Hm as (Hb & Ho & _). destruct (make_ok (call_sender m) (p_comp p) (call_headers m) g' K Ho Hb) as (c2 & is & Em & _ & Ec2 & V & _).
    unfold compress_group in Ec. rewrite Em in Ec. cbn [bind] in Ec. rewrite Ec2 in Ec. destruct (to_wire _ h is g') as [b|] eqn:Ew; cbn [bind] in Ec; [|discriminate].
    assert (b = blob) by congruence. subst b. apply (C118_bits h _ is _ blob Hh V Hlt) in Ew. apply nine2 in Ew. congruence.
Qed.

Lemma told1_inv dk iter h maxb maxv p xs gs : visits iter -> coder1 h -> told1 dk iter h maxb maxv p xs gs ->
  pinv1 dk p /\ exists seen, first_seen (map norm_host xs) seen /\ ginv seen (p1_hosts p) (p1_ids p) /\ Forall2 (numbered seen) xs gs.
Proof.
  intros Hi Hh H. induction H as [|p xs gs m p1 blob p2 out g H (IH & seen & F & G & N) Hm E1 Hl E2 Hg].
  - split; [split; cbn [proc1_new p1_comp p1_decomp p1_hosts p1_ids]; [apply inv1_new|intros id z Hz; discriminate|reflexivity|discriminate|split; reflexivity]|].
    exists []. split; [constructor|]. split; [apply ginv_new|constructor].
  - destruct (call1_round dk iter norm_host h p m p1 blob Hi Hh IH Hm E1 Hl) as (p2' & out' & F2 & I & _). assert (p2' = p2) as -> by congruence. split; [exact I|].
    unfold proc1_compress in E1. fold (assign (p1_hosts p) (p1_ids p) (norm_host (c1_host m))) in E1. destruct (assign (p1_hosts p) (p1_ids p) (norm_host (c1_host m))) as [[g' hosts'] ids'] eqn:Ea.
    destruct (step_seen xs gs seen _ _ (c1_host m) g' hosts' ids' F G N Ea) as (seen' & F' & G' & N').
    destruct (compress1 dk iter h (c1_sender m) (p1_comp p) (c1_headers m) g') as [[c b]|] eqn:Ec; cbn [bind] in E1; [|discriminate].
    assert (b = blob) by congruence. subst b. assert (Ep : p1 = mk_proc1 c (p1_decomp p) hosts' ids') by congruence. subst p1.
    unfold proc1_decompress in E2. cbn [p1_decomp p1_comp p1_hosts p1_ids] in E2. destruct (decompress1 dk iter h (c1_receiver m) (p1_decomp p) blob) as [[d o2]|]; cbn [bind] in E2; [|discriminate].
    assert (Ep2 : p2 = mk_proc1 c d hosts' ids') by congruence. subst p2. cbn [p1_hosts p1_ids] in *. exists seen'. split; [exact F'|]. split; [exact G'|].
    assert (g = g') as ->; [|exact N'].
    assert (Hlt : g' < 256).
    { clear - Ea IH. destruct IH as [_ _ _ Hg [I1 I2]]. unfold assign in Ea. destruct (dget (p1_hosts p) _) as [x|] eqn:Ed; [assert (x = g') by congruence; subst; eauto|].
      unfold ids_get in Ea. rewrite I1, I2 in Ea. change (negb (255 =? 0)) with true in Ea. cbn [andb] in Ea. destruct (N.leb_spec 255 (is_next (p1_ids p) + 1));
        match type of Ea with (?x, _, _) = _ => assert (g' = x) by congruence end; lia. }
    destruct IH as [K _ _ _ _]. destruct Hm as [M1 M2 M3 _ M5 M6]. cbn [m1_headers m1_sender] in *.
    unfold compress1 in Ec. destruct (make_operations1 dk iter (c1_sender m) (p1_comp p) (c1_headers m) g') as [[c1 i]|] eqn:Em; cbn [bind] in Ec; [|discriminate].
    destruct (to_wire1 h i g') as [b|] eqn:Ew; cbn [bind] in Ec; [|discriminate]. assert (b = blob) by congruence. subst b.
    destruct (made_fits dk iter _ _ _ _ _ _ K M5 M1 M2 Em) as [Nt Hf]. apply (C119_octets h i _ blob Hh Hf Nt Hlt) in Ew as (s & r & _ & W). apply nine1 in W. congruence.
Qed.

(** ** C121 *)

(** The group that a message names is the number of its host's shortened name in the order
    in which the names are first heard of. *)
Theorem C121_delta2_groups : forall h o p xs gs seen, coder h -> told h o p xs gs -> first_seen (map norm_host xs) seen -> Forall2 (numbered seen) xs gs.
Proof.
  intros h o p xs gs seen Hh T F. destruct (told_inv h o p xs gs Hh T) as (_ & seen' & F' & _ & N). rewrite (first_seen_det _ _ F _ F'). exact N.
Qed.
Print Assumptions C121_delta2_groups.
Theorem C121_delta_groups : forall dk iter h maxb maxv p xs gs seen, visits iter -> coder1 h -> told1 dk iter h maxb maxv p xs gs ->
  first_seen (map norm_host xs) seen -> Forall2 (numbered seen) xs gs.
Proof.
  intros dk iter h maxb maxv p xs gs seen Hi Hh T F. destruct (told1_inv dk iter h maxb maxv p xs gs Hi Hh T) as (_ & seen' & F' & _ & N). rewrite (first_seen_det _ _ F _ F'). exact N.
Qed.
Print Assumptions C121_delta_groups.

(** So two hosts share a group exactly when their names are shortened to the same, up to
    254 names; of more names, those whose numbers differ by a multiple of 255 share one. *)
Theorem C121_shared : forall xs gs seen i j x y g g', first_seen (map norm_host xs) seen -> Forall2 (numbered seen) xs gs ->
  nth_error xs i = Some x -> nth_error xs j = Some y -> nth_error gs i = Some g -> nth_error gs j = Some g' ->
  (norm_host x = norm_host y -> g = g') /\ ((length seen <= 255)%nat -> g = g' -> norm_host x = norm_host y).
Proof.
  intros xs gs seen i j x y g g' F N Hx Hy Hg Hg'.
  assert (Hn : forall i x g, nth_error xs i = Some x -> nth_error gs i = Some g -> numbered seen x g).
  { clear - N. induction N as [|a b xs gs H N IH]; intros [|i] x g Ex Eg; cbn [nth_error] in *; try discriminate; [assert (a = x) by congruence; assert (b = g) by congruence; now subst|eauto]. }
  assert (D : NoDup seen).
  { clear - F. generalize dependent (map norm_host xs). intros l F. clear xs. induction F as [|l seen x H IH Hx|l seen x H IH Hx]; [constructor|exact IH|].
    apply Permutation_NoDup with (l := x :: seen); [apply Permutation_cons_append|now constructor]. }
  destruct (Hn _ _ _ Hx Hg) as (n & En & ->), (Hn _ _ _ Hy Hg') as (m & Em & ->). split.
  - intros E. rewrite E in En. assert (n = m); [|now subst]. apply (proj1 (NoDup_nth_error seen) D); [apply nth_error_Some; congruence|congruence].
  - intros L E. assert (Hn' : (n < length seen)%nat) by (apply nth_error_Some; congruence). assert (Hm' : (m < length seen)%nat) by (apply nth_error_Some; congruence).
    assert (n = m); [|subst; congruence]. pose proof (N.div_mod (N.of_nat (S n)) 255 ltac:(discriminate)) as X. pose proof (N.div_mod (N.of_nat (S m)) 255 ltac:(discriminate)) as Y.
    rewrite E in X. set (r := N.of_nat (S m) mod 255) in *. assert (r < 255) by (apply N.mod_lt; discriminate).
    set (a := N.of_nat (S n) / 255) in *. set (b := N.of_nat (S m) / 255) in *. assert (a <= 1 /\ b <= 1) as [Ha Hb] by (unfold a, b; split; apply N.div_le_upper_bound; lia || lia). nia.
Qed.
Print Assumptions C121_shared.

(** Five messages to new processors, of delta2. *)
Definition to_host (x : string) : call := mk_call [(lit ":path", lit "/"); (lit ":host", lit x)] (lit x) backwards (@rev _).
Fixpoint octets_of (h : huffman) (p : processor) (ms : list call) : res (processor * list N) :=
  match ms with
  | [] => Ok (p, [])
  | m :: r =>
      let* (p, blob) := proc_compress norm_host h (call_sender m) p (call_headers m) (call_host m) in
      let* (p, _) := proc_decompress h (call_receiver m) p blob in
      let* (p, gs) := octets_of h p r in
      match nth_error blob 8 with Some g => if lenN blob <=? 65536 then Ok (p, g :: gs) else Err Diverge | None => Err Diverge end
  end.
Lemma octets_told h o ms : forall p xs gs p' gs', told h o p xs gs -> Forall call_ok ms -> octets_of h p ms = Ok (p', gs') -> told h o p' (xs ++ map call_host ms) (gs ++ gs').
Proof.
  induction ms as [|m r IH]; intros p xs gs p' gs' T F E; cbn [octets_of] in E.
  - assert (p' = p /\ gs' = []) as [-> ->] by (split; congruence). cbn [map]. now rewrite !app_nil_r.
  - inversion F as [|? ? Fm Fr]; subst. destruct (proc_compress _ _ _ _ _ _) as [[p1 blob]|] eqn:E1; cbn [bind] in E; [|discriminate].
    destruct (proc_decompress _ _ _ _) as [[p2 out]|] eqn:E2; cbn [bind] in E; [|discriminate]. destruct (octets_of h p2 r) as [[p3 g3]|] eqn:E3; cbn [bind] in E; [|discriminate].
    destruct (nth_error blob 8) as [g|] eqn:Eg; [|discriminate]. destruct (N.leb_spec (lenN blob) 65536) as [L|L]; [|discriminate].
    assert (p' = p3 /\ gs' = g :: g3) as [-> ->] by (split; congruence). cbn [map].
    replace (xs ++ call_host m :: map call_host r) with ((xs ++ [call_host m]) ++ map call_host r) by now rewrite <- app_assoc.
    replace (gs ++ g :: g3) with ((gs ++ [g]) ++ g3) by now rewrite <- app_assoc. apply (IH p2); [|exact Fr|exact E3]. eapply told_step; eauto.
Qed.
Example C121_groups_case : exists h p, coder h /\
  told h default_options p (map lit ["www.example.com"; "img2.example.com"; "cdn.example.org"; "static.example.com"; "img2.example.com"]%string) [1; 2; 3; 1; 2] /\
  first_seen (map norm_host (map lit ["www.example.com"; "img2.example.com"; "cdn.example.org"; "static.example.com"; "img2.example.com"]%string))
             (map lit ["example.com"; "img2example.com"; "example.org"]%string).
Proof.
  destruct (new_huffman int_dict_order (with_symbols small_counts)) as [h|e] eqn:Eh; [|exfalso; vm_compute in Eh; discriminate]. exists h.
  destruct (proc_new default_options) as [p0|e] eqn:Ep; [|exfalso; vm_compute in Ep; discriminate].
  assert (X : match octets_of h p0 (map to_host ["www.example.com"; "img2.example.com"; "cdn.example.org"; "static.example.com"; "img2.example.com"]%string) with Ok (_, gs) => gs = [1; 2; 3; 1; 2] | Err _ => False end).
  { assert (match new_huffman int_dict_order (with_symbols small_counts), proc_new default_options with Ok h, Ok p0 =>
      match octets_of h p0 (map to_host ["www.example.com"; "img2.example.com"; "cdn.example.org"; "static.example.com"; "img2.example.com"]%string) with Ok (_, gs) => gs = [1; 2; 3; 1; 2] | Err _ => False end | _, _ => False end)
      as X by (vm_compute; reflexivity). now rewrite Eh, Ep in X. }
  destruct (octets_of _ _ _) as [[p gs]|] eqn:E; [|contradiction]. subst gs. exists p. split; [|split].
  - exists int_dict_order, (with_symbols small_counts). split; [apply cpython_iterates|]. split; [exact Eh|]. intros c Hc.
    assert (Es : map fst (with_symbols small_counts) = map N.of_nat (seq 0 257)) by (vm_compute; reflexivity). rewrite Es. apply in_map_iff. exists (N.to_nat c).
    split; [apply N2Nat.id|]. apply in_seq. lia.
  - apply (octets_told h default_options _ p0 [] [] p _) in E; [exact E|now constructor|].
    apply Forall_forall. intros m Hm. apply in_map_iff in Hm as (x & <- & Hx). split; [|split; [exact backwards_ok|intros; symmetry; apply Permutation_rev]].
    assert (Hb : forall y, forallb (fun c => c <? 256) (lit y) = true -> is_bytes (lit y)).
    { intros y Hy. apply Forall_forall. intros c Hc. rewrite forallb_forall in Hy. now apply N.ltb_lt, Hy. }
    intros k v [E'|[E'|[]]]; injection E' as <- <-; (split; [apply Hb; reflexivity|]); [apply Hb; reflexivity|].
    repeat (destruct Hx as [<-|Hx]; [apply Hb; reflexivity|]). destruct Hx.
  - set (a := lit "example.com"). set (b := lit "img2example.com"). set (c := lit "example.org").
    match goal with |- first_seen ?l _ => replace l with ((((([] ++ [a]) ++ [b]) ++ [c]) ++ [a]) ++ [b]) by (vm_compute; reflexivity) end.
    change (first_seen ((((([] ++ [a]) ++ [b]) ++ [c]) ++ [a]) ++ [b]) ((([] ++ [a]) ++ [b]) ++ [c])).
    apply seen_old; [apply seen_old; [apply seen_new; [apply seen_new; [apply seen_new; [constructor|]|]|]|]|].
    + intros [].
    + intros [E1|[]]; discriminate.
    + intros [E1|[E1|[]]]; discriminate.
    + now left.
    + right. now left.
Qed.
