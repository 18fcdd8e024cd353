(** * Property C129: conversations through two delta_bohe codecs, over the octets. *)
From Coq Require Import String List NArith ZArith Bool Arith Lia ZifyN ZifyNat Permutation Sorted.
From Verif Require Import PyBase PyStr Lib_Model Bits BB_Model D2Huff_Model D2Huff_Proofs D1Huff_Model D1Wire_Model D1Wire_Frame Prop_D1Wire D2Code_Model Bohe_Model Prop_Bohe
  DB_Model DB_Proofs DB_Ops DB_Session DB_Wire DB_Text Prop_DB Prop_DB3 DBR_Model Prop_DBRead DBX_Model.
From Verif Require Import PyStr.
From Verif Require DC_Model DC_Proofs Prop_DC.
Import ListNotations.
Open Scope Z_scope.
Open Scope py_scope.

(** ** Specification *)

(** A dictionary of at most 128 headers of octets, all of which are sent as text. *)
Record text_headers (L : library) (m : message) : Prop := mk_text_headers {
  th_names : NoDup (map fst m);
  th_octets : forall k v, In (k, v) m -> is_bytes k /\ is_bytes v;
  th_text : forall k v, In (k, v) m -> encoder L k = None;
  th_few : (length m <= 128)%nat }.
(** Every call returned one frame. *)
Definition in_frames (outs : list (res str)) : Prop := Forall (fun o => exists blob, o = Ok blob /\ (lenN blob <= 65536)%N) outs.
(** What came out is what was sent; what came out was sent. *)
Definition arrived (m : message) (out : hdict) : Prop := forall k v, dget out k = Some v <-> In (k, v) m.
Definition only_sent (m : message) (out : hdict) : Prop := forall k v, dget out k = Some v -> In (k, v) m.

(** ** The receiver's table: the sender's but for generations, and for a size that is not larger *)
Definition flatten (e : entry) : entry := set_gen (if grouped e then Some 0%N else None) e.
Definition fl (z : Z) (t : table) : table := mk_table (b_keys t) (b_nkey t) (b_nlru t) z (b_num t) (map flatten (b_def t)) (map flatten (b_old t)) (map flatten (b_new t)).
Definition follows (t r : table) : Prop := exists z, z <= b_size t /\ r = fl z t.

Lemma fl_entries z t : entries (fl z t) = map flatten (entries t).
Proof. unfold entries, fl. cbn [b_def b_old b_new]. now rewrite !map_app. Qed.
Lemma flatten_grouped e : grouped (flatten e) = grouped e.
Proof. unfold flatten, grouped, set_gen. cbn [e_gen]. now destruct (e_gen e). Qed.
Lemma existsb_flat (p : entry -> bool) l : (forall e, p (flatten e) = p e) -> existsb p (map flatten l) = existsb p l.
Proof. intros H. induction l as [|e l IH]; [reflexivity|]. cbn [map existsb]. now rewrite H, IH. Qed.
Lemma filter_flat (p : entry -> bool) l : (forall e, p (flatten e) = p e) -> filter p (map flatten l) = map flatten (filter p l).
Proof. intros H. induction l as [|e l IH]; [reflexivity|]. cbn [map filter]. rewrite H. destruct (p e); cbn [map]; now rewrite IH. Qed.
Lemma find_flat z t k v : find_entry (fl z t) k v = option_map flatten (find_entry t k v).
Proof.
  unfold find_entry. rewrite fl_entries. induction (entries t) as [|e l IH]; [reflexivity|]. cbn [map find]. change (e_key (flatten e)) with (e_key e). change (e_val (flatten e)) with (e_val e).
  destruct (str_eqb (e_key e) k && str_eqb (e_val e) v); [reflexivity|exact IH].
Qed.
Lemma fl_each z g g' t : (forall e, flatten (g e) = g' (flatten e)) -> fl z (each g t) = each g' (fl z t).
Proof. intros H. unfold fl, each. cbn [b_keys b_nkey b_nlru b_num b_def b_old b_new b_size]. rewrite !map_map. f_equal; apply map_ext; exact H. Qed.

Lemma toggle_fl z gen t i t' : toggle gen t i = Ok t' -> toggle 0 (fl z t) i = Ok (fl z t').
Proof.
  unfold toggle. rewrite fl_entries, existsb_flat by reflexivity. destruct (existsb _ _); [|discriminate]. intros E. f_equal.
  match type of E with Ok ?x = _ => assert (E' : t' = x) by congruence end. rewrite E'. symmetry. apply fl_each.
  intros e. change (e_idx (flatten e)) with (e_idx e). destruct (e_idx e =? i); [|reflexivity]. unfold flatten, grouped, set_gen. cbn [e_gen e_idx e_key e_val]. now destruct (e_gen e).
Qed.
Lemma toggles_fl z gen is : forall t t', toggle_each gen t is = Ok t' -> toggle_each 0 (fl z t) is = Ok (fl z t').
Proof.
  induction is as [|i r IH]; intros t t' E; cbn [toggle_each] in *; [congruence|]. apply bind_ok in E. destruct E as (t1 & E1 & E2). rewrite (toggle_fl z gen t i t1 E1). cbn [bind]. now apply IH.
Qed.

Lemma pop_fl refs refs' z t t' : incl refs' refs -> z <= b_size t -> pop_one refs t = Ok t' -> exists z', z' <= b_size t' /\ pop_one refs' (fl z t) = Ok (fl z' t').
Proof.
  intros Hi Hz E. unfold pop_one in *. cbn [fl b_old b_keys b_nkey b_nlru b_size b_num b_def b_new]. destruct (b_old t) as [|e r].
  { cbn [map]. exists z. assert (t' = t) by congruence. subst t'. split; [exact Hz|reflexivity]. }
  cbn [map]. change (e_val (flatten e)) with (e_val e). change (e_key (flatten e)) with (e_key e).
  set (t1 := mk_table (b_keys t) (b_nkey t) (b_nlru t) (b_size t - slen (e_val e)) (b_num t - 1) (b_def t) r (b_new t)) in *.
  set (r1 := mk_table (b_keys t) (b_nkey t) (b_nlru t) (z - slen (e_val e)) (b_num t - 1) (map flatten (b_def t)) (map flatten r) (map flatten (b_new t))).
  assert (Er : r1 = fl (z - slen (e_val e)) t1) by reflexivity. rewrite Er, fl_entries, !existsb_flat; [|reflexivity|apply flatten_grouped].
  destruct (existsb grouped (entries t1)); [|discriminate]. cbn [fl b_size b_num t1].
  destruct (existsb (fun x => str_eqb (e_key x) (e_key e)) (entries t1)); cbn [orb] in *.
  - exists (z - slen (e_val e)). assert (t' = t1) by congruence. subst t'. split; [cbn [t1 b_size]; lia|reflexivity].
  - destruct (mem_str (e_key e) refs') eqn:M.
    + apply mem_str_in in M. apply Hi in M. apply mem_str_in in M. rewrite M in E. assert (t' = t1) by congruence. subst t'. exists (z - slen (e_val e)). split; [cbn [t1 b_size]; lia|reflexivity].
    + exists (z - slen (e_val e) - slen (e_key e)). pose proof (Nat2Z.is_nonneg (length (e_key e))) as P. fold (slen (e_key e)) in P.
      destruct (mem_str (e_key e) refs).
      * assert (t' = t1) by congruence. subst t'. split; [cbn [t1 b_size]; lia|reflexivity].
      * match type of E with Ok ?x = _ => assert (t' = x) by congruence end. subst t'. split; [cbn [t1 b_size]; lia|reflexivity].
Qed.
Lemma space_fl refs refs' z t s a t' : incl refs' refs -> z <= b_size t -> make_space refs t s a = Ok t' -> exists z', z' <= b_size t' /\ make_space refs' (fl z t) s a = Ok (fl z' t').
Proof.
  intros Hi Hz E. unfold make_space in *. cbn [fl b_num b_size] in *. change (b_num (fl z t)) with (b_num t). destruct (max_vals <? b_num t + a); [exact (pop_fl refs refs' z t t' Hi Hz E)|].
  destruct (Z.ltb_spec max_state_size (b_size t + s)); [discriminate|]. destruct (Z.ltb_spec max_state_size (z + s)); [lia|]. exists z. assert (t' = t) by congruence. subst t'. auto.
Qed.
Lemma key_fl refs z t k t' : z <= b_size t -> add_key refs t k = Ok t' -> exists z', z' <= b_size t' /\ add_key [] (fl z t) k = Ok (fl z' t').
Proof.
  intros Hz E. unfold add_key in *. change (b_keys (fl z t)) with (b_keys t). destruct (key_index (b_keys t) k).
  - exists z. assert (t' = t) by congruence. subst t'. auto.
  - apply bind_ok in E. destruct E as (t1 & E1 & E2). destruct (space_fl refs [] z t _ _ t1 ltac:(intros x []) Hz E1) as (z1 & H1 & ->). cbn [bind].
    match type of E2 with Ok ?x = _ => assert (t' = x) by congruence end. subst t'. exists (z1 + slen k). split; [cbn [b_size]; lia|reflexivity].
Qed.
Lemma insert_fl refs gen z t k v t' : z <= b_size t -> insert_val refs gen t k v = Ok t' -> exists z', z' <= b_size t' /\ insert_val [] 0 (fl z t) k v = Ok (fl z' t').
Proof.
  intros Hz E. unfold insert_val in *. apply bind_ok in E. destruct E as (t1 & E1 & E2). destruct (key_fl refs z t k t1 Hz E1) as (z1 & H1 & ->). cbn [bind]. rewrite find_flat.
  destruct (find_entry t1 k v); [discriminate|]. cbn [option_map]. apply bind_ok in E2. destruct E2 as (t2 & E2 & E3).
  destruct (space_fl (k :: refs) [k] z1 t1 _ _ t2 ltac:(intros x [<-|[]]; now left) H1 E2) as (z2 & H2 & ->). cbn [bind].
  match type of E3 with Ok ?x = _ => assert (t' = x) by congruence end. subst t'. exists z2. split; [cbn [b_size]; lia|]. unfold fl. cbn [b_keys b_nkey b_nlru b_num b_def b_old b_new b_size]. now rewrite map_app.
Qed.

(** ** Operations *)
Lemma exec_app gen a b : forall t, exec_ops gen t (a ++ b) = let* t := exec_ops gen t a in exec_ops gen t b.
Proof. induction a as [|o a IH]; intros t; [reflexivity|]. cbn [app exec_ops]. destruct (exec_op gen t o); [apply IH|reflexivity]. Qed.
Lemma clones_fl refs gen l : forall z t t', z <= b_size t -> run_clones refs gen t l = Ok t' ->
  exists z', z' <= b_size t' /\ exec_ops 0 (fl z t) (map (fun '(n, v) => Clone n v) (map fst l)) = Ok (fl z' t').
Proof.
  induction l as [|[[n v] f] l IH]; intros z t t' Hz E; cbn [run_clones map fst exec_ops exec_op] in *; [exists z; assert (t' = t) by congruence; subst; auto|].
  change (b_keys (fl z t)) with (b_keys t). destruct (key_at (b_keys t) n) as [k|]; [|discriminate]. apply bind_ok in E. destruct E as (t1 & E1 & E2).
  destruct (insert_fl refs gen z t k v t1 Hz E1) as (z1 & H1 & ->). cbn [bind]. exact (IH z1 t1 t' H1 E2).
Qed.
Lemma stores_fl refs gen l : forall z t t', z <= b_size t -> run_kvstos refs gen t l = Ok t' ->
  exists z', z' <= b_size t' /\ exec_ops 0 (fl z t) (map (fun '(k, v) => Kvsto k v) (map fst l)) = Ok (fl z' t').
Proof.
  induction l as [|[[k v] f] l IH]; intros z t t' Hz E; cbn [run_kvstos map fst exec_ops exec_op] in *; [exists z; assert (t' = t) by congruence; subst; auto|].
  apply bind_ok in E. destruct E as (t1 & E1 & E2). destruct (insert_fl refs gen z t k v t1 Hz E1) as (z1 & H1 & ->). cbn [bind]. exact (IH z1 t1 t' H1 E2).
Qed.

Lemma toggle_each_wf gen is : forall t t', wf t -> toggle_each gen t is = Ok t' -> wf t'.
Proof.
  induction is as [|i r IH]; intros t t' W E; cbn [toggle_each] in E; [congruence|]. apply bind_ok in E. destruct E as (t1 & E1 & E2). refine (IH t1 t' _ E2). unfold toggle in E1. destruct (existsb _ _); [|discriminate].
  match type of E1 with Ok ?x = _ => assert (E' : t1 = x) by congruence end. rewrite E'. clear E1 E'.
  rewrite (each_ext _ (regen (fun e => if e_idx e =? i then match e_gen e with Some _ => None | None => Some gen end else e_gen e))); [now apply regen_wf|]. intros [x k v g] _. unfold regen, set_gen. cbn [e_idx e_gen e_key e_val]. now destruct (x =? i).
Qed.
Lemma clones_wf refs gen l : forall t t', wf t -> run_clones refs gen t l = Ok t' -> wf t'.
Proof.
  induction l as [|[[n v] f] l IH]; intros t t' W E; cbn [run_clones] in E; [congruence|]. destruct (key_at (b_keys t) n) as [k|]; [|discriminate]. apply bind_ok in E. destruct E as (t1 & E1 & E2).
  refine (IH t1 t' _ E2). exact (in_wf _ _ _ _ (insert_val_ok _ _ _ _ _ _ W E1)).
Qed.
Lemma kvstos_wf refs gen l : forall t t', wf t -> run_kvstos refs gen t l = Ok t' -> wf t'.
Proof.
  induction l as [|[[k v] f] l IH]; intros t t' W E; cbn [run_kvstos] in E; [congruence|]. apply bind_ok in E. destruct E as (t1 & E1 & E2). refine (IH t1 t' _ E2). exact (in_wf _ _ _ _ (insert_val_ok _ _ _ _ _ _ W E1)).
Qed.
Lemma toggle_each_app gen a b : forall t, toggle_each gen t (a ++ b) = let* t := toggle_each gen t a in toggle_each gen t b.
Proof. induction a as [|i a IH]; intros t; [reflexivity|]. cbn [app toggle_each]. destruct (toggle gen t i); [apply IH|reflexivity]. Qed.
Lemma exec_singles gen is : forall t, exec_ops gen t (map Toggl is) = toggle_each gen t is.
Proof. induction is as [|i r IH]; intros t; [reflexivity|]. cbn [map exec_ops exec_op toggle_each]. destruct (toggle gen t i); [apply IH|reflexivity]. Qed.
Lemma exec_ranges gen rs : forall t, exec_ops gen t (map (fun '(s, e) => Trang e s) rs) = toggle_each gen t (flat_map (fun '(s, e) => between s e) rs).
Proof.
  induction rs as [|[s e] r IH]; intros t; [reflexivity|]. cbn [map exec_ops exec_op flat_map]. rewrite toggle_each_app. unfold between. destruct (toggle_each gen t _); [apply IH|reflexivity].
Qed.
Definition flip (gen : N) (i : Z) (e : entry) : entry := if e_idx e =? i then set_gen (match e_gen e with Some _ => None | None => Some gen end) e else e.
Lemma toggle_is gen t i : toggle gen t i = if existsb (fun e => e_idx e =? i) (entries t) then Ok (each (flip gen i) t) else Err KeyError.
Proof. reflexivity. Qed.
Lemma flip_idx gen i e : e_idx (flip gen i e) = e_idx e.
Proof. unfold flip. now destruct (e_idx e =? i). Qed.
Lemma exists_flip gen i j l : existsb (fun e => e_idx e =? j) (map (flip gen i) l) = existsb (fun e => e_idx e =? j) l.
Proof. induction l as [|e l IH]; [reflexivity|]. cbn [map existsb]. now rewrite flip_idx, IH. Qed.
Lemma toggles_perm gen a b : Permutation a b -> forall t t', toggle_each gen t a = Ok t' -> toggle_each gen t b = Ok t'.
Proof.
  induction 1 as [|i a b P IH|i j a|a b c P1 IH1 P2 IH2]; intros t t' E; [exact E| | |now apply IH2, IH1].
  - cbn [toggle_each] in *. destruct (toggle gen t i); [now apply IH|discriminate].
  - cbn [toggle_each] in *. rewrite !toggle_is in *. destruct (existsb (fun e => e_idx e =? j) (entries t)) eqn:Ej; [|discriminate]. cbn [bind] in E. rewrite toggle_is, each_entries, exists_flip in E.
    destruct (existsb (fun e => e_idx e =? i) (entries t)) eqn:Ei; [|discriminate]. cbn [bind] in *. rewrite toggle_is, each_entries, exists_flip, Ej. cbn [bind]. rewrite <- E. rewrite !each_each. f_equal. apply each_ext.
    intros [x k v g] _. unfold flip, set_gen. cbn [e_idx e_key e_val e_gen]. destruct (x =? i) eqn:A, (x =? j) eqn:B; cbn [e_idx e_key e_val e_gen]; rewrite ?A, ?B; reflexivity.
Qed.

(** ** Renumbering *)
Lemma renumber_fl z t i : renumber_one (fl z t) i = fl z (renumber_one t i).
Proof.
  unfold renumber_one, fl. cbn [b_keys b_nkey b_nlru b_num b_def b_old b_new b_size]. rewrite !filter_flat by reflexivity. rewrite <- map_app, !map_map. f_equal; apply map_ext; intros e; change (e_idx (flatten e)) with (e_idx e); now destruct (e_idx e =? i).
Qed.
Lemma adjust_fl z t : adjust (fl z t) = fl z (adjust t).
Proof.
  unfold adjust. rewrite fl_entries, filter_flat by apply flatten_grouped. rewrite map_map. change (map (fun x => e_idx (flatten x))) with (map e_idx). generalize (sort_z (map e_idx (filter grouped (entries t)))). intros l. revert t.
  induction l as [|i l IH]; intros t; [reflexivity|]. cbn [fold_left]. now rewrite renumber_fl, IH.
Qed.
Lemma adjust_size t : b_size (adjust t) = b_size t.
Proof. unfold adjust. generalize (sort_z (map e_idx (filter grouped (entries t)))). intros l. revert t. induction l as [|i l IH]; intros t; [reflexivity|]. cbn [fold_left]. now rewrite IH. Qed.
Lemma unpin_fl z t : unpin (fl z t) = fl z (unpin t).
Proof. unfold unpin, fl. cbn. now rewrite map_app. Qed.

Lemma insert_e_perm x l : Permutation (insert_e x l) (x :: l).
Proof. induction l as [|y r IH]; [reflexivity|]. cbn [insert_e]. destruct (e_idx x <=? e_idx y); [reflexivity|]. rewrite IH. constructor. Qed.
Lemma by_index_perm l : Permutation (by_index l) l.
Proof. induction l as [|x l IH]; [constructor|]. cbn [by_index fold_right]. fold (by_index l). rewrite insert_e_perm. now constructor. Qed.

Lemma touched_flat z gen ps t : fl z (each (regen (touched gen ps)) t) = fl z t.
Proof.
  rewrite (fl_each z _ (fun e => e)); [apply each_id|]. intros e. unfold flatten, regen, touched, grouped, set_gen. cbn [e_gen e_idx e_key e_val]. destruct (e_gen e) eqn:E; cbn [andb]; [destruct (has ps e)|]; cbn [e_gen]; now rewrite ?E.
Qed.

(** ** One message *)
Lemma group_adjust t : wf t -> b_new t = [] -> Permutation (group (adjust t)) (group t).
Proof.
  intros W Hn. destruct (adjust_ok t W Hn) as (A & _ & _). pose proof (ad_entries t (adjust t) Hn A) as P.
  assert (X : forall l, map pair_of (filter grouped l) = map fst (filter (fun c => match snd c with Some _ => true | None => false end) (map core l))).
  { induction l as [|e l IH]; [reflexivity|]. cbn [filter map core snd]. unfold grouped at 1. destruct (e_gen e); cbn [map fst]; now rewrite IH. }
  unfold group. rewrite !X. apply Permutation_map. generalize dependent (map core (entries t)). intros l P. clear - P.
  induction P as [|x a b P IH|x y a|a b c P1 IH1 P2 IH2]; cbn [filter]; [constructor|destruct (snd x); [constructor|]; exact IH|destruct (snd x), (snd y); try constructor; reflexivity|etransitivity; eassumption].
Qed.
Definition as_kv (e : entry) : DC_Model.kv := DC_Model.mk_kv (e_idx e) (e_key e) (e_val e).
Lemma headers_as t : exists es, headers_of t = cookie_nul (fold_left DC_Model.add_header es []) /\ Permutation (map DC_Proofs.kv_pair es) (group t).
Proof.
  exists (map as_kv (by_index (filter grouped (entries t)))). split.
  - unfold headers_of. f_equal. generalize (by_index (filter grouped (entries t))), (@nil (str * str)). induction l as [|e l IH]; intros a; [reflexivity|]. cbn [fold_left map]. apply IH.
  - rewrite map_map. unfold group. apply Permutation_map, by_index_perm.
Qed.

Definition in_step (c d : codec) : Prop := follows (c_table c) (c_table d) /\ c_gen d = 0%N.
Lemma call_received is_request L ord h c d m c' i blob : db_coder is_request = Ok h -> codec_ok c -> ord_ok ord -> in_step c d ->
  make_operations L ord c m = Ok (c', i) -> one_frame h i blob ->
  exists d' es, receive h d blob = Ok (d', cookie_nul (fold_left DC_Model.add_header es [])) /\ in_step c' d' /\ Permutation (map DC_Proofs.kv_pair es) (group (c_table c')).
Proof.
  intros Eh W Ho [(z & Hz & Er) Eg] E F. destruct (C128_read is_request h i blob Eh F) as (ops & Eops & (singles & ranges & Pt & El)).
  destruct (call_ok L ord c m c' i W Ho E) as (W' & _ & ps & Ep & Ei & _). destruct W as (Wt & Hn & Ha).
  unfold make_operations in E. rewrite process_flat, Ep in E. cbn [bind] in E. rewrite process_closed in E by exact Wt. cbn [bind n_toggl n_clone n_kvsto] in E.
  change (flat_map (toggl_of (c_table c)) ps ++ turn_offs ord (c_gen c) (each (regen (touched (c_gen c) ps)) (c_table c))) with (n_toggl (instrs_of L ord (c_gen c) (c_table c) ps)) in E.
  change (flat_map (clone_of L (c_table c)) ps) with (n_clone (instrs_of L ord (c_gen c) (c_table c) ps)) in E. change (flat_map (kvsto_of L (c_table c)) ps) with (n_kvsto (instrs_of L ord (c_gen c) (c_table c) ps)) in E.
  rewrite <- Ei in E. apply bind_ok in E. destruct E as (t1 & E1 & E). apply bind_ok in E. destruct E as (t2 & E2 & E). apply bind_ok in E. destruct E as (t3 & E3 & E).
  assert (Ec : c' = mk_codec (adjust (unpin t3)) (c_gen c + 1)%N) by congruence. clear E.
  assert (Wu : wf (unpin t3)).
  { apply unpin_wf. assert (W1 : wf t1) by (exact (toggle_each_wf _ _ _ _ (regen_wf _ _ Wt) E1)). exact (kvstos_wf _ _ _ _ _ (clones_wf _ _ _ _ _ W1 E2) E3). }
  assert (Hz1 : z <= b_size t1).
  { assert (S : forall is t t', toggle_each (c_gen c) t is = Ok t' -> b_size t' = b_size t).
    { clear. induction is as [|j r IH]; intros t t' E; cbn [toggle_each] in E; [congruence|]. rewrite toggle_is in E. destruct (existsb _ _); [|discriminate]. cbn [bind] in E. rewrite (IH _ _ E). reflexivity. }
    rewrite (S _ _ _ E1). exact Hz. }
  apply (toggles_perm _ _ _ (Permutation_sym Pt)) in E1. apply (toggles_fl z) in E1. rewrite touched_flat, toggle_each_app in E1.
  destruct (clones_fl _ _ _ z t1 t2 Hz1 E2) as (z2 & Hz2 & X2). destruct (stores_fl _ _ _ z2 t2 t3 Hz2 E3) as (z3 & Hz3 & X3).
  assert (X : exec_ops (c_gen d) (c_table d) ops = Ok (fl z3 t3)).
  { rewrite Eg, Er, El, exec_app, exec_singles. destruct (toggle_each 0 (fl z (c_table c)) singles) as [ta|]; [|discriminate]. cbn [bind] in *.
    rewrite exec_app, exec_ranges, E1. cbn [bind]. rewrite exec_app, X2. exact X3. }
  destruct (headers_as (unpin (fl z3 t3))) as (es & Ee & Pe).
  exists (mk_codec (adjust (unpin (fl z3 t3))) (c_gen d)), es. unfold receive. rewrite Eops. cbn [bind]. rewrite X. cbn [bind]. rewrite Ee. split; [reflexivity|]. subst c'. cbn [c_table c_gen]. split.
  - split; [|exact Eg]. exists z3. cbn [c_table]. rewrite adjust_size. split; [exact Hz3|]. now rewrite unpin_fl, adjust_fl.
  - rewrite Pe. symmetry. rewrite unpin_fl. replace (group (fl z3 (unpin t3))) with (group (unpin t3)).
    + apply group_adjust; [|reflexivity]. exact Wu.
    + unfold group. rewrite fl_entries, filter_flat by apply flatten_grouped. now rewrite map_map.
Qed.

(** ** The headers put together *)
Lemma text_stands L m : (forall k v, In (k, v) m -> encoder L k = None) -> stands L m m.
Proof.
  induction m as [|[k v] m IH]; intros H; [constructor|]. pose proof (H k v (or_introl eq_refl)) as Hk.
  refine (stands_cons L k v [v] [v] m m _ _ (IH (fun k' v' Hin => H k' v' (or_intror Hin)))).
  - unfold parts. destruct (str_eqb_spec k (lit "cookie")) as [->|_]; [discriminate Hk|reflexivity].
  - constructor; [|constructor]. unfold encoded. now rewrite Hk.
Qed.
Lemma text_is L m : text_headers L m -> text_message L m m.
Proof.
  intros [H1 H2 H3 H4]. constructor; [now apply text_stands|exact (NoDup_map_inv _ _ H1)|exact H2| |exact H4]. intros [k v] Hp. exact (H3 k v Hp).
Qed.

Lemma put_together L m es : text_headers L m -> NoDup (map DC_Proofs.kv_pair es) -> incl (map DC_Proofs.kv_pair es) m ->
  only_sent m (cookie_nul (fold_left DC_Model.add_header es [])) /\
  forall k v, In (k, v) (map DC_Proofs.kv_pair es) -> dget (cookie_nul (fold_left DC_Model.add_header es [])) k = Some v.
Proof.
  intros T Nd Hi.
  assert (One : forall k v w, In (k, v) m -> In (k, w) m -> v = w).
  { pose proof (th_names _ _ T) as H. clear - H. induction m as [|[k0 v0] m IH]; intros k v w Hv Hw; [contradiction|]. cbn [map fst] in H. inversion H as [|? ? N1 N2]. subst.
    destruct Hv as [Hv|Hv], Hw as [Hw|Hw].
    - congruence.
    - exfalso. apply N1. apply (in_map fst) in Hw. assert (k = k0) by congruence. subst. exact Hw.
    - exfalso. apply N1. apply (in_map fst) in Hv. assert (k = k0) by congruence. subst. exact Hv.
    - exact (IH N2 k v w Hv Hw). }
  assert (Nc : forall v, ~ In (lit "cookie", v) m) by (intros v H; apply (th_text _ _ T) in H; discriminate H).
  assert (Iv : forall k v, In v (Prop_DC.vals k es) <-> In (k, v) (map DC_Proofs.kv_pair es)).
  { intros k v. rewrite Prop_DC.vals_is. unfold Prop_DC.vals_in. rewrite in_map_iff. split.
    - intros ([k' v'] & Ev & H). apply filter_In in H. destruct H as [H Hk]. cbn [fst snd] in *. apply str_eqb_eq in Hk. now subst.
    - intros H. exists (k, v). split; [reflexivity|]. apply filter_In. split; [exact H|apply str_eqb_refl]. }
  assert (Nv : forall k, NoDup (Prop_DC.vals k es)).
  { intros k. rewrite Prop_DC.vals_is. unfold Prop_DC.vals_in. generalize dependent (map DC_Proofs.kv_pair es). intros l Nd _ _. induction Nd as [|[k' v'] l N1 N2 IH]; cbn [filter fst]; [constructor|].
    destruct (str_eqb_spec k' k) as [->|_]; [|exact IH]. cbn [map snd]. constructor; [|exact IH]. intros C. apply in_map_iff in C. destruct C as ([k2 v2] & Ev & C). apply filter_In in C. destruct C as [C Hk]. cbn [fst snd] in *. apply str_eqb_eq in Hk. now subst. }
  assert (Short : forall k, Prop_DC.vals k es = [] \/ exists v, Prop_DC.vals k es = [v]).
  { intros k. pose proof (Nv k) as N. destruct (Prop_DC.vals k es) as [|v [|w r]] eqn:E; [now left|right; eauto|]. exfalso.
    assert (v = w) by (apply (One k); apply Hi, Iv; rewrite E; [now left|right; now left]). subst. inversion N as [|? ? N1 _]. apply N1. now left. }
  assert (G : forall k, dget (cookie_nul (fold_left DC_Model.add_header es [])) k = match Prop_DC.vals k es with [] => None | v :: _ => Some v end).
  { intros k. assert (C : Prop_DC.vals (lit "cookie") es = []).
    { destruct (Short (lit "cookie")) as [E|[v E]]; [exact E|]. exfalso. apply (Nc v), Hi, Iv. rewrite E. now left. }
    unfold cookie_nul. rewrite Prop_DC.add_headers_get, C. cbn [dget]. rewrite Prop_DC.add_headers_get. cbn [dget]. destruct (Short k) as [->|[v ->]]; reflexivity. }
  split.
  - intros k v E. rewrite G in E. destruct (Prop_DC.vals k es) as [|w r] eqn:Ew; [discriminate|]. assert (w = v) by congruence. subst w. apply Hi, Iv. rewrite Ew. now left.
  - intros k v H. rewrite G. apply Iv in H. destruct (Short k) as [E|[w E]]; rewrite E in *; [destruct H|]. destruct H as [->|[]]. reflexivity.
Qed.

(** ** Conversations *)

Lemma step is_request L ord h c d m : db_coder is_request = Ok h -> codec_ok c -> ord_ok ord -> in_step c d -> (length (group (c_table c)) <= 128)%nat -> text_headers L m ->
  forall s blob, db_compress L ord h (Some c) m = (s, Ok blob) -> (lenN blob <= 65536)%N ->
  exists c' i d' out, s = Some c' /\ make_operations L ord c m = Ok (c', i) /\ codec_ok c' /\ (length (group (c_table c')) <= 128)%nat /\ in_step c' d' /\
    receive h d blob = Ok (d', out) /\ only_sent m out /\ (Permutation (group (c_table c')) m -> arrived m out).
Proof.
  intros Eh W Ho St Hg Th s blob Ed Hl. destruct (coder_words is_request h Eh) as (ws & G & He). unfold db_compress in Ed. destruct (make_operations L ord c m) as [[c' i]|] eqn:Em; [|congruence].
  assert (Es : s = Some c') by congruence. assert (Eo : real_ops h i = Ok blob) by congruence. clear Ed.
  destruct (text_is L m Th) as [T1 T2 T3 T4 T5]. destruct (call_ok L ord c m c' i W Ho Em) as (W1 & _ & qs & Eq & Ei & _).
  destruct (stands_pieces L m m T1) as (rs & Er1 & Pq). assert (rs = qs) by congruence. subst rs.
  assert (Nq : NoDup qs) by (eapply Permutation_NoDup; [symmetry; exact Pq|exact T2]).
  assert (Oq : octet_pairs qs) by (intros k v H; apply T3; eapply Permutation_in; [exact Pq|exact H]).
  assert (Lq : (length qs <= 128)%nat) by (rewrite (Permutation_length Pq); exact T5).
  assert (Sq : texts i) by (rewrite Ei; apply instrs_texts; intros p H; apply T4; eapply Permutation_in; [exact Pq|exact H]).
  assert (Fq : few i) by (rewrite Ei; now apply instrs_few).
  assert (Iq : instrs_ok i). { destruct (instrs_strings L ord (c_gen c) (c_table c) qs Oq) as [H1 H2]. rewrite <- Ei in H1, H2. exact (written_ok h ws G He i blob H1 H2 Eo). }
  assert (Of : one_frame h i blob).
  { destruct Sq as [S1 S2]. destruct Fq as (F1 & F2 & F3). rewrite Forall_forall in S1, S2. refine (conj Iq (conj _ (conj _ (conj F1 (conj F2 (conj F3 (conj Eo Hl))))))); intros n v b Hb; [exact (S1 _ Hb)|exact (S2 _ Hb)]. }
  destruct (call_received is_request L ord h c d m c' i blob Eh W Ho St Em Of) as (d' & es & Er & St' & Pe).
  pose proof (called_group L ord c m c' i qs W Ho Eq Nq Em) as Ig. pose proof (group_nodup (c_table c') (proj1 W1)) as Ng.
  destruct (put_together L m es Th) as [P1 P2].
  { eapply Permutation_NoDup; [symmetry; exact Pe|exact Ng]. } { intros p Hp. eapply Permutation_in; [exact Pq|]. apply Ig. eapply Permutation_in; [exact Pe|exact Hp]. }
  exists c', i, d', (cookie_nul (fold_left DC_Model.add_header es [])). split; [exact Es|]. split; [reflexivity|]. split; [exact W1|]. split; [apply Nat.le_trans with (length qs); [now apply NoDup_incl_length|exact Lq]|].
  split; [exact St'|]. split; [exact Er|]. split; [exact P1|]. intros Pm k v. split; [apply P1|]. intros H. apply P2. eapply Permutation_in; [symmetry; exact Pe|]. eapply Permutation_in; [symmetry; exact Pm|exact H].
Qed.

Lemma fresh_step ds c : fresh ds c -> in_step c c /\ group (c_table c) = [].
Proof.
  intros F. pose proof (fr_off _ _ F) as Off. split.
  - split; [|exact (fr_gen _ _ F)]. exists (b_size (c_table c)). split; [lia|].
    assert (X : forall l, Forall (fun e => e_gen e = None) l -> map flatten l = l).
    { induction 1 as [|[x k v g] l He _ IH]; [reflexivity|]. cbn [map]. rewrite IH. cbn [e_gen] in He. now subst g. }
    unfold entries in Off. apply Forall_app in Off. destruct Off as [O1 O2]. apply Forall_app in O2. destruct O2 as [O2 O3]. unfold fl. rewrite !X by assumption. now destruct (c_table c).
  - unfold group. clear - Off. induction Off as [|e l He _ IH]; [reflexivity|]. cbn [filter]. unfold grouped at 1. rewrite He. exact IH.
Qed.

(** Whatever the messages are and whatever is thrown out of the tables on the way: the receiver,
    made as the sender was, never raises and makes up nothing. *)
Theorem C129_keeps_up : forall is_request L ord h c ms, processor is_request ord h (Some c) -> Forall (text_headers L) ms ->
  in_frames (snd (run L ord h (Some c) ms)) ->
  exists outs, talk L ord h (Some c) c ms = Ok outs /\ Forall2 only_sent ms outs.
Proof.
  intros is_request L ord h c ms [Ec (ds & P & En) Ho] HF Hr. destruct (db_new_ok ds P) as (c0 & E0 & F0). assert (c0 = c) by congruence. subst c0. destruct (fresh_step ds c F0) as [St Hg].
  assert (Hl : (length (group (c_table c)) <= 128)%nat) by (rewrite Hg; cbn; lia). pose proof (fr_ok _ _ F0) as W. clear - Ec Ho HF Hr St Hl W.
  assert (Rec : forall ms, Forall (text_headers L) ms -> forall c d, codec_ok c -> in_step c d -> (length (group (c_table c)) <= 128)%nat -> in_frames (snd (run L ord h (Some c) ms)) ->
    exists outs, talk L ord h (Some c) d ms = Ok outs /\ Forall2 only_sent ms outs).
  { clear - Ec Ho. induction 1 as [|m ms Hm HF IH]; intros c d W St Hl Hr; [exists []; split; [reflexivity|constructor]|]. cbn [run] in Hr. cbn [talk].
    destruct (db_compress L ord h (Some c) m) as [s o] eqn:Ed. destruct (run L ord h s ms) as [s2 os] eqn:Er. cbn [snd] in Hr. inversion Hr as [|? ? (blob & Eb & Lb) Hr']. subst.
    destruct (step is_request L ord h c d m Ec W Ho St Hl Hm s blob Ed Lb) as (c' & i & d' & out & -> & _ & W' & Hl' & St' & Ex & Hs & _).
    destruct (IH c' d' W' St' Hl') as (outs & Et & Fo); [now rewrite Er|]. cbn [bind]. rewrite Ex. cbn [bind]. rewrite Et. cbn [bind]. eexists. split; [reflexivity|]. now constructor. }
  exact (Rec ms HF c c W St Hl Hr).
Qed.
Print Assumptions C129_keeps_up.

(** As long as all the different headers fit into the tables, every message arrives. *)
Theorem C129_conversations : forall is_request L ord h c U ms, processor is_request ord h (Some c) -> roomy U -> Forall (text_headers L) ms -> Forall (fun m => incl m U) ms ->
  in_frames (snd (run L ord h (Some c) ms)) ->
  exists outs, talk L ord h (Some c) c ms = Ok outs /\ Forall2 arrived ms outs.
Proof.
  intros is_request L ord h c U ms [Ec (ds & P & En) Ho] R HF HU Hr. destruct (db_new_ok ds P) as (c0 & E0 & F0). assert (c0 = c) by congruence. subst c0. destruct (fresh_step ds c F0) as [St Hg].
  assert (Hl : (length (group (c_table c)) <= 128)%nat) by (rewrite Hg; cbn; lia). pose proof (fresh_small ds U c F0) as S. clear - Ec Ho P R HF HU Hr St Hl S.
  assert (Rec : forall ms, Forall (text_headers L) ms -> Forall (fun m => incl m U) ms -> forall c d, small ds U c -> in_step c d -> (length (group (c_table c)) <= 128)%nat -> in_frames (snd (run L ord h (Some c) ms)) ->
    exists outs, talk L ord h (Some c) d ms = Ok outs /\ Forall2 arrived ms outs).
  { clear - Ec Ho P R. induction 1 as [|m ms Hm HF IH]; intros HU c d W St Hl Hr; [exists []; split; [reflexivity|constructor]|]. inversion HU as [|? ? Hu HU']. subst. cbn [run] in Hr. cbn [talk].
    destruct (db_compress L ord h (Some c) m) as [s o] eqn:Ed. destruct (run L ord h s ms) as [s2 os] eqn:Er. cbn [snd] in Hr. inversion Hr as [|? ? (blob & Eb & Lb) Hr']. subst.
    destruct (step is_request L ord h c d m Ec (sm_ok _ _ _ W) Ho St Hl Hm s blob Ed Lb) as (c' & i & d' & out & -> & Em & W' & Hl' & St' & Ex & _ & Hs).
    pose proof (text_is L m Hm) as Tm. destruct (plain_pieces L U m m (conj (tm_stands _ _ _ Tm) (conj (tm_different _ _ _ Tm) Hu))) as (qs & Eq & Nq & Iq & Pq).
    destruct (small_call L ord ds U c m qs P R W Ho Eq Nq Iq) as (c2 & Em2 & S2 & _ & _ & Pg & _). assert (c2 = c') by congruence. subst c2.
    destruct (IH HU' c' d' S2 St' Hl') as (outs & Et & Fo); [now rewrite Er|]. cbn [bind]. rewrite Ex. cbn [bind]. rewrite Et. cbn [bind]. eexists. split; [reflexivity|]. constructor; [|exact Fo]. apply Hs. now rewrite Pg. }
  exact (Rec ms HF HU c c S St Hl Hr).
Qed.
Print Assumptions C129_conversations.

(** ** A case: headers toggled off and on, a clone, a range *)
Definition talk_messages : list message :=
  [[(lit "x-own", lit "7"); (lit ":path", lit "/index.html"); (lit "x-two", lit "a b")]; []; [(lit ":path", lit "/other"); (lit "x-two", lit "a b"); (lit "x-own", lit "7")];
   [(lit "x-own", lit "8"); (lit ":path", lit "/index.html")]].
Definition talk_headers : list (str * str) := concat talk_messages.
Lemma talk_runs : match db_coder true, db_new default_dict with
  | Ok h, Ok (Some c) =>
      forallb (fun o => match o with Ok b => (lenN b <=? 65536)%N | Err _ => false end) (snd (run some_library (fun l => l) h (Some c) talk_messages)) = true /\
      match talk some_library (fun l => l) h (Some c) c talk_messages with Ok outs => map (fun o => (dget o (lit ":path"), dget o (lit "x-own"))) outs =
        [(Some (lit "/index.html"), Some (lit "7")); (None, None); (Some (lit "/other"), Some (lit "7")); (Some (lit "/index.html"), Some (lit "8"))] | Err _ => False end
  | _, _ => False
  end.
Proof. vm_compute. split; reflexivity. Qed.
Example C129_case : roomy talk_headers /\ Forall (text_headers some_library) talk_messages /\ Forall (fun m => incl m talk_headers) talk_messages /\
  exists h c, processor true (fun l => l) h (Some c) /\ in_frames (snd (run some_library (fun l => l) h (Some c) talk_messages)).
Proof.
  split; [|split; [|split]].
  - apply roomy_bound; [vm_compute; lia|]. intros p Hp. vm_compute in Hp. repeat (destruct Hp as [<-|Hp]; [vm_compute; discriminate|]). destruct Hp.
  - repeat (apply Forall_cons); try apply Forall_nil; (constructor; [vm_compute; repeat (constructor; [let H := fresh in intros H; repeat (destruct H as [H|H]; [discriminate|]); exact H|]); constructor| | |vm_compute; lia]); intros k v Hp;
      repeat (destruct Hp as [E|Hp]; [injection E as <- <-; first [reflexivity|split; repeat constructor]|]); destruct Hp.
  - apply Forall_forall. intros m Hm p Hp. apply in_concat. eauto.
  - pose proof talk_runs as X. destruct (db_coder true) as [h|] eqn:Eh; [|contradiction]. destruct (db_new default_dict) as [[c|]|] eqn:En; [|contradiction|contradiction]. destruct X as [X _].
    exists h, c. split; [constructor; [exact Eh|exists default_dict; split; [reflexivity|exact En]|reflexivity]|].
    rewrite forallb_forall in X. apply Forall_forall. intros o Ho. specialize (X o Ho). destruct o as [b|]; [|discriminate]. exists b. split; [reflexivity|now apply N.leb_le].
Qed.

(** ** Names with several values *)

(** Whatever the table holds: a name's values come out in the order of their entries' numbers,
    joined by NUL octets, or by a semicolon and a blank in a cookie, where every NUL octet
    becomes that. *)
Definition values_named (k : str) (es : list entry) : list str := map e_val (filter (fun e => str_eqb (e_key e) k) es).
Theorem C129_headers : forall t, exists es, Permutation es (filter grouped (entries t)) /\ StronglySorted (fun a b => e_idx a <= e_idx b) es /\
  forall k, dget (headers_of t) k = match values_named k es with
    | [] => None
    | vs => Some (if str_eqb k (lit "cookie") then join (lit "; ") (map nul_to_semi vs) else join [0%N] vs)
    end.
Proof.
  intros t. exists (by_index (filter grouped (entries t))). split; [apply by_index_perm|]. split.
  - induction (filter grouped (entries t)) as [|x l IH]; [constructor|]. cbn [by_index fold_right]. fold (by_index l). clear - IH. induction IH as [|y r S IH F]; cbn [insert_e]; [repeat constructor|].
    destruct (Z.leb_spec (e_idx x) (e_idx y)) as [H|H].
    + constructor; [now constructor|]. constructor; [exact H|]. eapply Forall_impl, F. intros e He. cbv beta in He. lia.
    + constructor; [exact IH|]. eapply Permutation_Forall; [symmetry; apply insert_e_perm|]. constructor; [lia|exact F].
  - intros k. set (l := by_index (filter grouped (entries t))).
    assert (E : headers_of t = cookie_nul (fold_left DC_Model.add_header (map as_kv l) [])).
    { unfold headers_of. fold l. f_equal. generalize (@nil (str * str)). induction l as [|e r IH]; intros a; [reflexivity|]. cbn [fold_left map]. apply IH. }
    assert (V : forall n, Prop_DC.vals n (map as_kv l) = values_named n l).
    { intros n. unfold Prop_DC.vals, values_named. clear. induction l as [|e r IH]; [reflexivity|]. cbn [map filter as_kv DC_Model.q_key]. destruct (str_eqb (e_key e) n); cbn [map]; [f_equal|]; exact IH. }
    rewrite E. unfold cookie_nul. pose proof (Prop_DC.add_headers_get k (map as_kv l) []) as A. pose proof (Prop_DC.add_headers_get (lit "cookie") (map as_kv l) []) as B. cbn [dget] in A, B. rewrite V in A, B.
    destruct (dget (fold_left DC_Model.add_header (map as_kv l) []) (lit "cookie")) as [x|] eqn:Ex.
    + destruct (str_eqb_spec k (lit "cookie")) as [->|Hk].
      * rewrite Prop_DC.dget_dset_same. destruct (values_named (lit "cookie") l) as [|v r]; [discriminate|]. assert (x = join [0%N] (v :: r)) as -> by congruence. now rewrite Prop_DC.nul_to_semi_join.
      * rewrite Prop_DC.dget_dset_other by congruence. rewrite A. destruct (values_named k l); reflexivity.
    + destruct (str_eqb_spec k (lit "cookie")) as [->|Hk]; [rewrite Ex; destruct (values_named (lit "cookie") l); [reflexivity|discriminate]|]. rewrite A. destruct (values_named k l); reflexivity.
Qed.
Print Assumptions C129_headers.
Example C129_headers_case : let e i k v := mk_entry i (lit k) (lit v) (Some 0%N) in
  let out := headers_of (mk_table [] 0 9 0 5 [] [e 5 "x" "2"; e 3 "cookie" "b=2"; e 2 "cookie" "a=1"; e 1 "x" "1"; mk_entry 4 (lit "y") (lit "3") None]%string []) in
  dget out (lit "x") = Some (lit "1" ++ [0%N] ++ lit "2") /\ dget out (lit "cookie") = Some (lit "a=1; b=2") /\ dget out (lit "y") = None.
Proof. vm_compute. repeat split. Qed.
