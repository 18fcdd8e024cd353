(** * Property C111: conversations through two delta2_bohe codecs, at the level of
    their operations. *)
From Coq Require Import String List NArith ZArith Bool Arith Lia Permutation.
From Verif Require Import PyBase PyStr Lib_Model D1Wire_Model D1Wire_Frame D2Code_Model DB_Model DC_Model DC_Proofs.
Import ListNotations.
Open Scope Z_scope.
Open Scope py_scope.

(** ** What is said about *)

(** A message is a dictionary of headers in the order in which it is iterated. *)
Definition message := list (str * str).
(** A cookie counts as its crumbs, without the blanks before them; every other header
    has one value. *)
Definition parts (k v : str) : list str := if str_eqb k (lit "cookie") then map (lstrip is_blank) (split_on 59 v) else [v].
(** The pairs of a name and a value, encoded, that a message stands for, in some order. *)
Inductive stands (enc : str -> str -> res str) : message -> list (str * str) -> Prop :=
| stands_nil : stands enc [] []
| stands_cons k v vs ws m ps : Permutation vs (parts k v) -> Forall2 (fun x w => enc k x = Ok w) vs ws -> stands enc m ps ->
    stands enc ((k, v) :: m) (map (pair k) ws ++ ps).
(** A dictionary whose pairs, encoded, are all different. *)
Definition plain (enc : str -> str -> res str) (m : N * message) (ps : list (str * str)) : Prop :=
  NoDup (map fst (snd m)) /\ stands enc (snd m) ps /\ NoDup ps.
(** The octets of pairs. *)
Definition octets (ps : list (str * str)) : Z := fold_right (fun p n => Z.of_nat (length (fst p)) + Z.of_nat (length (snd p)) + n) 0 ps.

(** What comes out for a message: the same names, each with its value encoded; the
    crumbs of a cookie with "; " between them, in some order (any other header has one
    value, and nothing is joined). *)
Definition delivered (enc : str -> str -> res str) (m : message) (out : hdict) : Prop := forall k,
  match dget m k with
  | None => dget out k = None
  | Some v => exists vs ws, Permutation vs (parts k v) /\ Forall2 (fun x w => enc k x = Ok w) vs ws /\
      dget out k = Some (if str_eqb k (lit "cookie") then join (lit "; ") (map nul_to_semi ws) else join [0%N] ws)
  end.

(** ** Headers put together *)
Definition vals (k : str) (es : list kv) : list str := map q_val (filter (fun e => str_eqb (q_key e) k) es).
Lemma join_head s x y r : join s ((x ++ s ++ y) :: r) = join s (x :: y :: r).
Proof. destruct r as [|z r]; cbn [join]; [reflexivity|]. rewrite <- !app_assoc. reflexivity. Qed.
Lemma dget_dset_same {V} (h : dict V) k v : dget (dset h k v) k = Some v.
Proof. now rewrite dget_dset, str_eqb_refl. Qed.
Lemma dget_dset_other {V} (h : dict V) k v k' : k <> k' -> dget (dset h k v) k' = dget h k'.
Proof. intros Hk. rewrite dget_dset. destruct (str_eqb_spec k' k); [congruence|reflexivity]. Qed.
Lemma add_headers_get k : forall es h, dget (fold_left add_header es h) k =
  match dget h k, vals k es with
  | None, [] => None
  | None, vs => Some (join [0%N] vs)
  | Some x, vs => Some (join [0%N] (x :: vs))
  end.
Proof.
  induction es as [|e es IH]; intros h; cbn [fold_left].
  - unfold vals. cbn [filter map]. destruct (dget h k); reflexivity.
  - rewrite IH. unfold vals. cbn [filter]. unfold add_header. destruct (str_eqb_spec (q_key e) k) as [<-|Hk].
    + destruct (dget h (q_key e)) as [x|]; rewrite dget_dset_same; cbn [map].
      * now rewrite join_head.
      * reflexivity.
    + destruct (dget h (q_key e)) as [x|]; rewrite dget_dset_other by exact Hk; reflexivity.
Qed.
Lemma nul_to_semi_app a b : nul_to_semi (a ++ b) = nul_to_semi a ++ nul_to_semi b.
Proof. apply flat_map_app. Qed.
Lemma nul_to_semi_join : forall ws, nul_to_semi (join [0%N] ws) = join (lit "; ") (map nul_to_semi ws).
Proof.
  induction ws as [|w ws IH]; [reflexivity|]. destruct ws as [|w' ws]; [reflexivity|].
  change (join [0%N] (w :: w' :: ws)) with (w ++ [0%N] ++ join [0%N] (w' :: ws)). rewrite !nul_to_semi_app, IH. reflexivity.
Qed.

(** ** The specification and the model's own list *)
Lemma sort_s_perm l : Permutation (sort_s l) l.
Proof.
  induction l as [|x l IH]; [constructor|]. cbn [sort_s fold_right]. fold (sort_s l). transitivity (x :: sort_s l); [|now constructor].
  generalize (sort_s l). induction l0 as [|y r IH']; [reflexivity|]. cbn [insert_s]. destruct (str_leb x y); [reflexivity|]. transitivity (y :: x :: r); [now constructor|constructor].
Qed.
Lemma values_parts k v : Permutation (values_of k v) (parts k v).
Proof. unfold values_of, parts, crumbs. destruct (str_eqb k _); [apply sort_s_perm|reflexivity]. Qed.
Lemma Forall2_perm {A B} (R : A -> B -> Prop) : forall a a', Permutation a a' -> forall b, Forall2 R a b -> exists b', Permutation b b' /\ Forall2 R a' b'.
Proof.
  induction 1 as [|x a b P IH|x y a|a b c P1 IH1 P2 IH2]; intros ps H.
  - inversion H; subst. exists []. split; constructor.
  - inversion H as [|? p ? ps' H1 H2]; subst. destruct (IH _ H2) as (qs & A1 & B1). exists (p :: qs). split; constructor; auto.
  - inversion H as [|? p ? ps' H1 H2]; subst. inversion H2 as [|? q ? ps'' H3 H4]; subst. exists (q :: p :: ps''). split; [apply perm_swap|repeat constructor; auto].
  - destruct (IH1 _ H) as (qs & A1 & B1). destruct (IH2 _ B1) as (rs & C & D). exists rs. split; [now transitivity qs|exact D].
Qed.
Lemma Forall2_swap {A B} (R : A -> B -> Prop) a b : Forall2 R a b -> Forall2 (fun y x => R x y) b a.
Proof. induction 1; constructor; auto. Qed.
Lemma encodes_values enc k vs ws : Forall2 (fun x w => enc k x = Ok w) vs ws -> Forall2 (encodes enc) (map (pair k) vs) (map (pair k) ws).
Proof. induction 1; cbn [map]; constructor; auto. split; auto. Qed.
Lemma stands_split enc m ps : stands enc m ps -> exists qs, Forall2 (encodes enc) (split_headers m) qs /\ Permutation qs ps.
Proof.
  induction 1 as [|k v vs ws m ps Hp HF _ (qs & Eq & Pq)]; [exists []; split; constructor|].
  assert (Pv : Permutation vs (values_of k v)) by (rewrite Hp; symmetry; apply values_parts).
  destruct (Forall2_perm _ _ _ Pv _ HF) as (ws' & Pw & Fw). exists (map (pair k) ws' ++ qs). split.
  - unfold split_headers. cbn [flat_map]. fold (split_headers m). apply Forall2_app; [now apply encodes_values|exact Eq].
  - apply Permutation_app; [|exact Pq]. apply Permutation_map. now symmetry.
Qed.

(** The values of a name among the pairs. *)
Definition vals_in (k : str) (ps : list (str * str)) : list str := map snd (filter (fun p => str_eqb (fst p) k) ps).
Lemma vals_is k es : vals k es = vals_in k (map kv_pair es).
Proof. unfold vals, vals_in. induction es as [|e es IH]; cbn [filter map kv_pair fst]; [reflexivity|]. destruct (str_eqb (q_key e) k); cbn [map]; [f_equal|]; exact IH. Qed.
Lemma vals_in_perm k a b : Permutation a b -> Permutation (vals_in k a) (vals_in k b).
Proof.
  intros P. unfold vals_in. apply Permutation_map. induction P as [|x a b P IH|x y a|a b c P1 IH1 P2 IH2]; cbn [filter].
  - constructor.
  - destruct (str_eqb (fst x) k); [constructor|]; exact IH.
  - destruct (str_eqb (fst x) k), (str_eqb (fst y) k); try constructor; reflexivity.
  - etransitivity; eassumption.
Qed.
Lemma vals_in_app k a b : vals_in k (a ++ b) = vals_in k a ++ vals_in k b.
Proof. unfold vals_in. now rewrite filter_app, map_app. Qed.
Lemma vals_in_map k k' ws : vals_in k (map (pair k') ws) = if str_eqb k' k then ws else [].
Proof. unfold vals_in. induction ws as [|w ws IH]; cbn [map filter fst]; [now destruct (str_eqb k' k)|]. destruct (str_eqb k' k); cbn [map snd]; [now rewrite IH|exact IH]. Qed.
Lemma stands_vals enc m ps k : NoDup (map fst m) -> stands enc m ps ->
  match dget m k with
  | None => vals_in k ps = []
  | Some v => exists vs, Permutation vs (parts k v) /\ Forall2 (fun x w => enc k x = Ok w) vs (vals_in k ps)
  end.
Proof.
  intros Hn H. induction H as [|k' v vs ws m ps Hp HF Hs IH]; [reflexivity|]. cbn [map fst] in Hn. inversion Hn as [|? ? N1 N2]; subst. specialize (IH N2).
  rewrite vals_in_app, vals_in_map. cbn [dget]. destruct (str_eqb_spec k k') as [<-|Hk]; [rewrite str_eqb_refl|destruct (str_eqb_spec k' k); [congruence|]; cbn [app]].
  - destruct (dget m k) eqn:E; [exfalso; apply N1; apply dget_in in E; apply (in_map fst) in E; exact E|]. rewrite IH, app_nil_r. eauto.
  - exact IH.
Qed.
Lemma parts_some k v vs ws (R : str -> str -> Prop) : Permutation vs (parts k v) -> Forall2 R vs ws -> ws <> [].
Proof.
  intros P F ->. inversion F; subst. apply Permutation_nil in P. unfold parts in P. destruct (str_eqb k (lit "cookie")); [|discriminate].
  apply map_eq_nil in P. exact (split_on_nonempty 59 v P).
Qed.

Lemma delivered_ok enc m qs es : NoDup (map fst m) -> stands enc m qs -> Permutation (map kv_pair es) qs ->
  delivered enc m (cookie_nul (fold_left add_header es [])).
Proof.
  intros Hn Hs P k. pose proof (stands_vals enc m qs k Hn Hs) as Hv. apply (vals_in_perm k) in P. rewrite <- vals_is in P.
  assert (G : dget (cookie_nul (fold_left add_header es [])) k = match vals k es with [] => None | vs => Some (if str_eqb k (lit "cookie") then join (lit "; ") (map nul_to_semi vs) else join [0%N] vs) end).
  { unfold cookie_nul. pose proof (add_headers_get k es []) as A. pose proof (add_headers_get (lit "cookie") es []) as B. cbn [dget] in A, B.
    destruct (dget (fold_left add_header es []) (lit "cookie")) as [x|] eqn:E.
    - destruct (str_eqb_spec k (lit "cookie")) as [->|Hk].
      + rewrite dget_dset_same. destruct (vals (lit "cookie") es) as [|v r]; [discriminate|]. assert (x = join [0%N] (v :: r)) as -> by congruence. now rewrite nul_to_semi_join.
      + rewrite dget_dset_other by congruence. rewrite A. destruct (vals k es); reflexivity.
    - destruct (str_eqb_spec k (lit "cookie")) as [->|Hk]; [rewrite E in *; destruct (vals (lit "cookie") es); [reflexivity|discriminate]|]. rewrite A. destruct (vals k es); reflexivity. }
  rewrite G. destruct (dget m k) as [v|].
  - destruct Hv as (vs & Pv & Fv). symmetry in P. destruct (Forall2_perm _ _ _ P _ (Forall2_swap _ _ _ Fv)) as (vs' & Pv' & Fv').
    apply Forall2_swap in Fv'. assert (Pp : Permutation vs' (parts k v)) by (rewrite <- Pv'; exact Pv). exists vs', (vals k es). split; [exact Pp|]. split; [exact Fv'|].
    pose proof (parts_some k v vs' _ _ Pp Fv') as Hne. destruct (vals k es); [contradiction|reflexivity].
  - rewrite Hv in P. apply Permutation_sym, Permutation_nil in P. rewrite P. reflexivity.
Qed.

(** ** The theorem *)
Lemma octets_bytes ps : octets ps = bytes_of ps.
Proof. induction ps as [|[k v] ps IH]; [reflexivity|]. cbn [octets fold_right fst snd bytes_of]. fold (octets ps). unfold slen. lia. Qed.

Lemma converse_ok ord enc : (forall n, is_order_z (ord n)) -> forall msgs pss, Forall2 (plain enc) msgs pss -> forall n c d l, in_step c d l ->
  bytes_of l + 2 * octets (concat pss) <= max_bytes -> Z.of_nat (length l) + 2 * Z.of_nat (length (concat pss)) <= max_items ->
  exists outs, converse ord enc n c d msgs = Ok outs /\ Forall2 (delivered enc) (map snd msgs) outs.
Proof.
  intros Ho. induction 1 as [|[gid m] ps msgs pss (Hn & Hs & Hd) F IH]; intros n c d l Hstep Hb Hi; cbn [converse concat map snd] in *.
  - exists []. split; [reflexivity|constructor].
  - rewrite octets_bytes, bytes_of_app in Hb. rewrite app_length in Hi.
    destruct (stands_split enc m ps Hs) as (qs & Fq & Pq). pose proof (bytes_of_pos (concat pss)) as Bp.
    assert (Nq : NoDup qs) by (eapply Permutation_NoDup; [symmetry; exact Pq|exact Hd]).
    assert (Bq : bytes_of qs = bytes_of ps) by (now apply bytes_of_perm). assert (Lq : length qs = length ps) by (now apply Permutation_length).
    destruct (message_ok (ord n) enc gid c d l m qs (Ho n) Hstep Fq Nq) as (c' & i & d1 & d' & es & new & cs & E1 & E2 & E3 & P3 & S' & B' & L').
    { unfold room. rewrite bytes_of_app, app_length. lia. }
    rewrite E1. cbn [bind]. rewrite E2. cbn [bind]. rewrite E3. cbn [bind].
    rewrite bytes_of_app, (bytes_of_app qs) in B'. rewrite app_length, (app_length qs) in L'.
    destruct (IH (S n) c' d' _ S') as (outs & E & Fo).
    { rewrite octets_bytes, !bytes_of_app. lia. } { rewrite !app_length. lia. }
    rewrite E. cbn [bind]. eexists. split; [reflexivity|]. constructor; [|exact Fo]. apply delivered_ok with ps; [exact Hn|exact Hs|now rewrite P3].
Qed.

Lemma in_step_new : in_step code_new code_new [].
Proof.
  split; [reflexivity|]. split; [reflexivity|]. intros gid. unfold group_of. cbn. repeat split; try constructor; try tauto; intros ? ? [].
Qed.

(** Any number of messages, of any stream groups, with any way of encoding values and
    whatever the orders of the codecs' dictionaries: as long as all that is sent,
    counted twice, fits into the table, every message arrives. *)
Theorem C111_short_conversations : forall ord enc msgs pss, (forall n l, Permutation (ord n l) l) -> Forall2 (plain enc) msgs pss ->
  2 * octets (concat pss) <= 16384 -> 2 * Z.of_nat (length (concat pss)) <= 1024 ->
  exists outs, converse ord enc 0 code_new code_new msgs = Ok outs /\ Forall2 (delivered enc) (map snd msgs) outs.
Proof.
  intros ord enc msgs pss Ho F Hb Hi. apply (converse_ok ord enc Ho msgs pss F 0%nat code_new code_new [] in_step_new); cbn [bytes_of length]; unfold max_bytes, max_items; lia.
Qed.
Print Assumptions C111_short_conversations.

Ltac different := vm_compute; repeat (constructor; [let H := fresh in intros H; repeat (destruct H as [H|H]; [discriminate|]); exact H|]); constructor.

(** ** A case: two groups, a header known beforehand, a cookie *)
Definition as_it_is (k v : str) : res str := Ok v.
Definition some_talk : list (N * message) :=
  [(1%N, [(lit ":path", lit "/a"); (lit "cookie", lit "b=2; a=1"); (lit "x-own", lit "7")]);
   (2%N, [(lit ":path", lit "/b"); (lit "x-own", lit "7")]);
   (1%N, [(lit "cookie", lit "a=1;  c=3"); (lit ":path", lit "/a")])].
Example C111_case :
  (exists pss, Forall2 (plain as_it_is) some_talk pss /\ 2 * octets (concat pss) <= 16384 /\ 2 * Z.of_nat (length (concat pss)) <= 1024) /\
  converse (fun _ l => rev l) as_it_is 0 code_new code_new some_talk =
    Ok [[(lit ":path", lit "/a"); (lit "cookie", lit "a=1; b=2"); (lit "x-own", lit "7")];
        [(lit "x-own", lit "7"); (lit ":path", lit "/b")];
        [(lit ":path", lit "/a"); (lit "cookie", lit "a=1; c=3")]].
Proof.
  split; [|vm_compute; reflexivity].
  exists [[(lit ":path", lit "/a"); (lit "cookie", lit "a=1"); (lit "cookie", lit "b=2"); (lit "x-own", lit "7")];
     [(lit ":path", lit "/b"); (lit "x-own", lit "7")]; [(lit "cookie", lit "a=1"); (lit "cookie", lit "c=3"); (lit ":path", lit "/a")]].
  split; [|split; vm_compute; discriminate].
  constructor; [|constructor; [|constructor; [|constructor]]]; (split; [different|split; [cbn [snd]|different]]).
  - apply (stands_cons _ (lit ":path") (lit "/a") [lit "/a"] [lit "/a"]); [reflexivity|repeat constructor|].
    apply (stands_cons _ (lit "cookie") (lit "b=2; a=1") [lit "a=1"; lit "b=2"] [lit "a=1"; lit "b=2"]); [apply perm_swap|repeat constructor|].
    apply (stands_cons _ (lit "x-own") (lit "7") [lit "7"] [lit "7"]); [reflexivity|repeat constructor|constructor].
  - apply (stands_cons _ (lit ":path") (lit "/b") [lit "/b"] [lit "/b"]); [reflexivity|repeat constructor|].
    apply (stands_cons _ (lit "x-own") (lit "7") [lit "7"] [lit "7"]); [reflexivity|repeat constructor|constructor].
  - apply (stands_cons _ (lit "cookie") (lit "a=1;  c=3") [lit "a=1"; lit "c=3"] [lit "a=1"; lit "c=3"]); [reflexivity|repeat constructor|].
    apply (stands_cons _ (lit ":path") (lit "/a") [lit "/a"] [lit "/a"]); [reflexivity|repeat constructor|constructor].
Qed.

(** ** Past that size *)

(** Values of one letter, and messages of headers that are not cookies. *)
Definition letters (n c : N) : str := N.iter n (cons c) [].
Definition small_messages (max : Z) (msgs : list (N * message)) : Prop :=
  Forall (fun m => NoDup (map fst (snd m)) /\ ~ In (lit "cookie") (map fst (snd m)) /\ octets (snd m) <= max) msgs.

(** No message has more than 3400 octets, a fifth of the table; a header sent four
    times does not arrive the fourth time. *)
Definition losing : list (N * message) :=
  map (fun c => (1%N, [(lit "x-a", letters 2000 97); (lit "x-b", letters 1350 c)])) [49; 50; 51; 52]%N.
Theorem C111_lost_header_refuted : exists msgs m outs out, small_messages 3400 (msgs ++ [m]) /\
  converse (fun _ l => l) as_it_is 0 code_new code_new (msgs ++ [m]) = Ok (outs ++ [out]) /\
  dget (snd m) (lit "x-a") = Some (letters 2000 97) /\ dget out (lit "x-a") = None.
Proof.
  exists (firstn 3 losing), (1%N, [(lit "x-a", letters 2000 97); (lit "x-b", letters 1350 52)]), (map snd (firstn 3 losing)), [(lit "x-b", letters 1350 52)].
  split; [|split; [vm_compute; reflexivity|split; vm_compute; reflexivity]].
  unfold small_messages, losing. cbn [firstn map app snd fst]. repeat (constructor; [cbn [snd map fst]; split; [different|split; [intros H; repeat (destruct H as [H|H]; [discriminate|]); exact H|vm_compute; discriminate]]|]). constructor.
Qed.
Print Assumptions C111_lost_header_refuted.

(** The sending codec alone. *)
Fixpoint sends (ord : nat -> list Z -> list Z) (enc : str -> str -> res str) (n : nat) (c : code) (msgs : list (N * message)) : res (list instrs) :=
  match msgs with
  | [] => Ok []
  | (gid, m) :: r => let* (c, i) := make_operations (ord n) enc gid c m in let* is := sends ord enc (S n) c r in Ok (i :: is)
  end.
(** The receiving codec stores what is cloned before it reads the toggles, the sending
    one afterwards: the sender is content and the receiver raises. *)
Definition out_of_step : list (N * message) :=
  [(1%N, [(lit "x-a", letters 1500 97)]); (1%N, [(lit "x-c", letters 3300 97)]); (1%N, [(lit "x-d", letters 3300 97)]);
   (1%N, [(lit "x-a", letters 1500 97); (lit ":path", letters 3100 97)])].
Theorem C111_order_refuted : exists msgs is, small_messages 4700 msgs /\
  sends (fun _ l => l) as_it_is 0 code_new msgs = Ok is /\
  converse (fun _ l => l) as_it_is 0 code_new code_new msgs = Err IndexError.
Proof.
  exists out_of_step. eexists. split; [|split; vm_compute; reflexivity].
  unfold small_messages, out_of_step. repeat (constructor; [cbn [snd map fst]; split; [different|split; [intros H; repeat (destruct H as [H|H]; [discriminate|]); exact H|vm_compute; discriminate]]|]). constructor.
Qed.
Print Assumptions C111_order_refuted.

(** The pairs have to be different: a crumb sent twice, found in the table, is toggled
    on and off. *)
Theorem C111_doubled_crumb_refuted : exists msgs m outs out, 
  converse (fun _ l => l) as_it_is 0 code_new code_new (msgs ++ [m]) = Ok (outs ++ [out]) /\
  dget (snd m) (lit "cookie") = Some (lit "a=1; a=1") /\ dget out (lit "cookie") = None.
Proof.
  exists [(1%N, [(lit "cookie", lit "a=1")]); (1%N, [(lit "x", lit "1")])], (1%N, [(lit "cookie", lit "a=1; a=1")]).
  eexists [_; _], _. split; [vm_compute; reflexivity|split; vm_compute; reflexivity].
Qed.
Print Assumptions C111_doubled_crumb_refuted.

(** A header longer than the table cannot be sent. *)
Lemma static_small : forallb (fun p => octets [p] <=? 1000) g_default_kvs = true.
Proof. vm_compute. reflexivity. Qed.
Lemma find_long c k w : holds c [] -> octets [(k, w)] > 16384 -> snd (find_idx c k w) = None.
Proof.
  intros H Hs. pose proof (find_idx_ok c [] k w H) as F. destruct (find_idx c k w) as [ki [vi|]]; [|reflexivity]. exfalso.
  assert (E : pair_at [] vi = Some (k, w)) by (destruct ki; exact F). unfold pair_at in E. destruct (vi <? 0); [discriminate|]. rewrite app_nil_r in E.
  apply nth_error_In in E. pose proof static_small as S. rewrite forallb_forall in S. specialize (S _ E). apply Z.leb_le in S. lia.
Qed.
Lemma insert_long c k w : holds c [] -> octets [(k, w)] > 16384 -> insert_val c k w = Err IndexError.
Proof.
  intros H Hs. unfold insert_val. rewrite H. unfold octets in Hs. cbn [fold_right fst snd] in Hs. cbn [number bytes_of r_ring r_bytes pop_items length].
  change (max_items <? Z.of_nat 0 + 1) with false. cbn [bind pop_bytes]. unfold slen. change max_bytes with 16384. destruct (Z.ltb_spec 16384 (0 + (Z.of_nat (length w) + Z.of_nat (length k)))); [reflexivity|lia].
Qed.
Theorem C111_too_long : forall ord enc gid k v w, k <> lit "cookie" -> enc k v = Ok w -> octets [(k, w)] > 16384 -> (forall l, Permutation (ord l) l) ->
  make_operations ord enc gid code_new [(k, v)] = Err IndexError.
Proof.
  intros ord enc gid k v w Hk He Hs Ho. unfold make_operations. destruct (gs_make_ok (k_groups code_new) gid) as (gs & Em & Eg & Eo). rewrite Em.
  unfold split_headers, values_of. cbn [flat_map]. destruct (str_eqb_spec k (lit "cookie")); [contradiction|]. cbn [map app process_all]. rewrite He. cbn [bind].
  set (c := mk_code _ gs). assert (Hc : holds c []) by reflexivity. unfold process_kv, gs_at. cbn [k_groups c]. unfold c at 1. cbn [k_groups]. rewrite Eg. cbn [bind].
  assert (O : ord (g_idxs (group_of (k_groups code_new) gid)) = []). { apply Permutation_nil. symmetry. exact (Ho (g_idxs (group_of (k_groups code_new) gid))). }
  rewrite O. cbn [has_kv bind]. pose proof (find_long c k w Hc Hs) as F. pose proof (find_idx_ok c [] k w Hc) as Fi. destruct (find_idx c k w) as [ki vi]. cbn [snd] in F. subst vi. destruct ki as [ki|].
  - destruct Fi as [x Fi]. cbn [bind process_all]. unfold exec_instrs. cbn [n_toggl n_clone n_kvsto app exec_toggles translate bind]. rewrite (lookup_ok c [] ki k x Hc Fi). cbn [bind exec_stores q_key]. unfold exec_store.
    rewrite (insert_long c k w Hc Hs). reflexivity.
  - cbn [bind process_all n_toggl n_clone n_kvsto app exec_instrs exec_toggles translate exec_stores]. unfold exec_instrs. cbn [n_toggl n_clone n_kvsto exec_toggles translate exec_stores bind]. unfold exec_store. rewrite (insert_long c k w Hc Hs). reflexivity.
Qed.
Print Assumptions C111_too_long.
Example C111_too_long_case : octets [(lit ":path", letters 16380 97)] > 16384 /\
  make_operations (fun l => l) as_it_is 1 code_new [(lit ":path", letters 16380 97)] = Err IndexError /\
  octets [(lit ":path", letters 8187 97)] = 8192 /\
  (match make_operations (fun l => l) as_it_is 1 code_new [(lit ":path", letters 8187 97)] with Ok _ => true | Err _ => false end) = true.
Proof. split; [vm_compute; reflexivity|]. split; [vm_compute; reflexivity|]. split; vm_compute; reflexivity. Qed.
