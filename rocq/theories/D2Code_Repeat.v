(** * Messages which need nothing stored, and what they leave behind. *)
From Coq Require Import String List NArith ZArith Bool Arith Lia Permutation Sorted.
From Verif Require Import PyBase PyStr Lib_Model Lib_Proofs D2Huff_Model D2Store_Model D2Store_Proofs Prop_D2Store D2Wire_Model Prop_D2Wire
  D2Code_Model Prop_D2Ranges D2Code_Sets D2Code_Store D2Code_Exec D2Code_Make D2Code_Round.
Import ListNotations.
Open Scope Z_scope.
Open Scope py_scope.

(** ** Specification *)

(** An operation which puts a new entry into the table. *)
Definition storing (o : op) : Prop :=
  match o with OClone false _ _ | OKvsto false _ _ => True | _ => False end.

(** An ephemeral literal, which leaves no trace. *)
Definition passing (o : op) : Prop := match o with OClone true _ _ => True | _ => False end.

(** ** Nothing stored, nothing changed but the group *)

Lemma map_index_storing f o o' : map_index f o = Ok o' -> (storing o <-> storing o') /\ (passing o <-> passing o').
Proof.
  destruct o as [e i|e i st|e i v|e k v]; cbn [map_index]; intros H.
  - destruct (f i); [|discriminate]. cbn [bind] in H. injection H as <-. cbn. tauto.
  - destruct (f i); [|discriminate]. cbn [bind] in H. destruct (f st); [|discriminate]. cbn [bind] in H. injection H as <-. cbn. tauto.
  - destruct (f i); [|discriminate]. cbn [bind] in H. injection H as <-. destruct e; cbn; tauto.
  - injection H as <-. tauto.
Qed.

Lemma mapm_forall2 {A B} (f : A -> res B) : forall l l', mapm f l = Ok l' -> Forall2 (fun x y => f x = Ok y) l l'.
Proof.
  induction l as [|x l IH]; intros l' H; cbn [mapm] in H; [injection H as <-; constructor|].
  destruct (f x) as [y|] eqn:E; [|discriminate]. cbn [bind] in H. destruct (mapm f l) as [r|]; [|discriminate]. cbn [bind] in H.
  injection H as <-. constructor; auto.
Qed.

Lemma hg_to_lru_storing c s ops ops' : hg_to_lru_ops c s ops = Ok ops' ->
  (Exists storing ops <-> Exists storing ops') /\ (Forall passing ops <-> Forall passing ops').
Proof.
  unfold hg_to_lru_ops. destruct (c_from_end c); [|intros E; injection E as <-; tauto].
  intros E. apply mapm_forall2 in E. induction E as [|x y l l' Hxy _ [IH1 IH2]].
  - split; split; intros; auto; match goal with H : Exists _ [] |- _ => inversion H end.
  - destruct (map_index_storing _ _ _ Hxy) as [S P]. rewrite !Exists_cons, !Forall_cons_iff. tauto.
Qed.

Lemma exec_plain s : forall ops x x', Forall (fun o => ~ storing o) ops -> exec_loop s x ops = Ok x' ->
  x_heap x' = x_heap x /\ x_later x' = x_later x.
Proof.
  induction ops as [|o ops IH]; intros x x' Hn E; cbn [exec_loop] in E; [injection E as <-; auto|].
  inversion Hn as [|? ? N1 N2]; subst. destruct (exec_op s x o) as [x1|] eqn:E1; [|discriminate]. cbn [bind] in E.
  destruct (IH x1 x' N2 E) as [-> ->]. clear IH E. destruct o as [e i|e i st|e i v|e k v]; cbn [exec_op] in E1.
  - injection E1 as <-. destruct e; auto.
  - destruct (xrange_fits st (i + 1)); [|discriminate]. injection E1 as <-. rewrite toggle_fold. destruct e; auto.
  - destruct (lookup_idx s i) as [[kk q]|]; [|discriminate]. cbn [bind] in E1. destruct e; [|exfalso; apply N1; exact I]. injection E1 as <-. auto.
  - destruct e; [|exfalso; apply N1; exact I]. injection E1 as <-. auto.
Qed.

Lemma gset_gset g id a b : gset (gset g id a) id b = gset g id b.
Proof. induction g as [|[i t] g IH]; cbn; [now rewrite N.eqb_refl|]. destruct (N.eqb_spec i id) as [->|N]; cbn; [now rewrite N.eqb_refl|]. destruct (N.eqb_spec i id); [contradiction|]. now rewrite IH. Qed.
Lemma gget_gset g id a : gget (gset g id a) id = Some a.
Proof. induction g as [|[i t] g IH]; cbn; [now rewrite N.eqb_refl|]. destruct (N.eqb_spec i id) as [->|N]; cbn; [now rewrite N.eqb_refl|]. destruct (N.eqb_spec i id); [contradiction|exact IH]. Qed.
Lemma find_gset g id a : find_or_make (gset g id a) id = gset g id a.
Proof. unfold find_or_make. now rewrite gget_gset. Qed.
Lemma gset_find g id a : gset (find_or_make g id) id a = gset g id a.
Proof. unfold find_or_make. destruct (gget g id); [reflexivity|]. apply gset_gset. Qed.

(** What execution does to the state when nothing is stored. *)
Lemma execute_plain ref k ops ops' gid k' hd : kinv k -> c_hg_adjust (k_cfg k) = false ->
  lru_to_hg_ops (k_cfg k) (k_store k) ops = Ok ops' -> clones_live (k_store k) ops' -> Forall (fun o => ~ storing o) ops' ->
  execute_ops ref k ops gid = Ok (k', hd) ->
  k' = mk_code (k_cfg k) (k_store k) (gset (k_groups k) gid (zsymdiff (cur_of k gid) (zsymdiff [] (toggles false ops')))).
Proof.
  intros K Ha Eo Hcl Hn. pose proof K as [Hc Hs Hg]. unfold execute_ops. cbv zeta. rewrite Eo, Ha. cbn [bind].
  destruct (exec_loop_ok _ _ Hc Hs ops' (mk_x (s_heap (k_store k)) [] [] [] []) Hcl) as (x & E & A1 & A2 & A3). rewrite E. cbn [bind].
  destruct (exec_plain _ _ _ _ Hn E) as [B1 B2]. cbn [x_heap x_later x_st] in *. rewrite B1, B2, A1.
  destruct (append_refs _ _ _) as [h|]; [|discriminate]. cbn [bind store_loop adjust_loop]. intros H. injection H as <- _.
  unfold y_set, y_cur. cbn [y_orphan y_groups y_store]. fold (cur_of k gid). rewrite gset_find.
  destruct k as [c s g]. cbn [k_cfg k_store k_groups]. destruct s; reflexivity.
Qed.

(** ** The parts of a message *)

Record parts (o : order) (k : code) (d : hdict) (gid : N) (kept done : list Z) (hs : list (str * str)) (m : mstate) (is : instructions) : Prop := {
  pt_keep : keep_loop (k_store k) (r_group o (cur_of k gid)) (headers_set d) [] = Ok (hs, done);
  pt_m : m = fold_left (make_op (k_cfg k) (k_store k)) (r_headers o hs) (mk_m [] [] [] [] []);
  pt_is : mapm (fun oc => let* ops := hg_to_lru_ops (k_cfg k) (k_store k) (ops_of m done oc) in Ok (oc, ops)) (r_instr o) = Ok is;
  pt_back : lru_to_hg_ops (k_cfg k) (k_store k) (flat_map snd is) = Ok (flat_map (ops_of m done) (r_instr o));
  pt_live : clones_live (k_store k) (flat_map (ops_of m done) (r_instr o));
  pt_kept : forall i, In i kept -> In i (cur_of k gid);
  pt_done : forall i, In i done <-> In i (cur_of k gid) /\ ~ In i kept;
  pt_split : Permutation (headers_set d) (map (kvof (k_store k)) kept ++ hs);
  pt_gone : forall i, In i (cur_of k gid) -> ~ In (kvof (k_store k) i) hs;
  pt_all : Permutation (headers_set d) (map (kvof (k_store k)) (kept ++ m_st m ++ m_et m) ++ map (ck (k_store k)) (m_sclone m ++ m_eclone m) ++ m_skvsto m);
  pt_sorted : zsorted (zsymdiff (cur_of k gid) (zsymdiff [] (toggles false (flat_map (ops_of m done) (r_instr o)))));
  pt_cur : forall i, In i (zsymdiff (cur_of k gid) (zsymdiff [] (toggles false (flat_map (ops_of m done) (r_instr o))))) <-> In i kept \/ In i (m_st m) }.

Lemma make_parts o k d gid k' is : kinv k -> order_ok o -> headers_bytes d -> make_operations o k d gid = Ok (k', is) ->
  exists kept done hs m, parts o k d gid kept done hs m is /\
    exists hd, execute_ops (r_refs o) k (flat_map snd is) gid = Ok (k', hd).
Proof.
  intros K Ho Hb. pose proof K as [Hc Hs Hg]. set (c := k_cfg k) in *. set (s := k_store k) in *. pose proof Ho as [O1 O2 O3 O4].
  unfold make_operations. cbv zeta. fold c. fold s. fold (cur_of k gid). destruct (cur_of_ok k gid K) as [Cs Cl]. fold s in Cl. set (cur := cur_of k gid) in *.
  destruct (headers_set_ok d) as [Hn Hin]. pose proof (zsorted_NoDup _ Cs) as Cn.
  destruct (keep_loop_ok c s Hc Hs (r_group o cur) (headers_set d) []) as (hs & done & kept & E & Z1 & Z2 & Z3 & Z4 & Z5).
  { eapply Permutation_NoDup; [symmetry; apply O2|exact Cn]. }
  { eapply Permutation_Forall; [symmetry; apply O2|exact Cl]. }
  { exact Hn. }
  { constructor. }
  rewrite E. cbn [bind].
  assert (Nall : NoDup (map (kvof s) kept ++ hs)) by (eapply Permutation_NoDup; [exact Z4|exact Hn]).
  assert (Nhs : NoDup (r_headers o hs)).
  { eapply Permutation_NoDup; [symmetry; apply O1|]. apply NoDup_app_r in Nall. exact Nall. }
  pose proof (make_fold_ok c s Hc Hs (r_headers o hs) Nhs) as M. set (m := fold_left _ _ _) in *. pose proof M as [M1 M2 M3 M4].
  rewrite (O1 hs) in M1. rewrite Forall_app in M3, M4. destruct M3 as [M3 M3']. destruct M4 as [M4 M4'].
  assert (Hall : Permutation (headers_set d) (map (kvof s) (kept ++ m_st m ++ m_et m) ++ map (ck s) (m_sclone m ++ m_eclone m) ++ m_skvsto m)).
  { rewrite Z4, M1, !map_app, <- !app_assoc. reflexivity. }
  assert (Hdone : forall i, In i done <-> In i cur /\ ~ In i kept).
  { intros i. rewrite Z3. cbn. split; [intros [[]|[A B]]|intros [A B]; right]; (split; [|exact B]); [eapply Permutation_in; [apply O2|exact A]|eapply Permutation_in; [symmetry; apply O2|exact A]]. }
  assert (Hkept : forall i, In i kept -> In i cur) by (intros i Hi; eapply Permutation_in; [apply O2|]; now apply Z2).
  assert (Hst : forall i, In i (m_st m ++ m_et m) -> ~ In i cur).
  { intros i Hi C. apply (Z5 i); [eapply Permutation_in; [symmetry; apply O2|exact C]|]. eapply Permutation_in; [symmetry; exact M1|]. apply in_or_app. left. now apply in_map. }
  assert (Hbytes : forall kk p, In (kk, p) (headers_set d) -> is_bytes kk /\ is_bytes p).
  { intros kk p H. apply Hin, all_pairs_in in H as (v & Hv & Hp). destruct (Hb kk v Hv) as [B1 B2]. split; [exact B1|]. now apply (pieces_in kk v p Hp). }
  assert (Hlive : forall oc x, In x (ops_of m done oc) -> op_live s x /\ op_bytes x /\ opcode_of x = oc).
  { intros oc x Hx. split; [|split; [|now apply ops_of_code in Hx]].
    - assert (Hu : forall (e : bool) i, In i (if e then m_et m else zunion (m_st m) done) -> live s i).
      { intros [] i Hi; [rewrite Forall_forall in M3'; now apply M3'|]. apply zunion_In in Hi as [Hi|Hi]; [rewrite Forall_forall in M3; now apply M3|].
        apply Hdone in Hi as [Hi _]. rewrite Forall_forall in Cl. now apply Cl. }
      destruct oc as [[] e]; cbn [ops_of] in Hx; [| | |destruct e; [contradiction|]]; apply in_map_iff in Hx as (y & <- & Hy); cbn [op_live].
      + apply (Hu e). now apply single_in.
      + destruct y as [i st]. apply range_in in Hy as [A B]. cbn [fst snd]. split; now apply (Hu e).
      + rewrite Forall_forall in M4, M4'. destruct e; [now apply (M4' y)|now apply (M4 y)].
      + exact I.
    - assert (Hsub : forall p, In p (map (ck s) (m_sclone m ++ m_eclone m) ++ m_skvsto m) -> is_bytes (fst p) /\ is_bytes (snd p)).
      { intros [a b] Hp. apply Hbytes. eapply Permutation_in; [symmetry; exact Hall|]. apply in_or_app. now right. }
      destruct oc as [[] e]; cbn [ops_of] in Hx; [| | |destruct e; [contradiction|]]; apply in_map_iff in Hx as (y & <- & Hy); cbn [op_bytes]; auto.
      + apply (Hsub (ck s y)). apply in_or_app. left. apply in_map. apply in_or_app. destruct e; auto.
      + apply (Hsub y). apply in_or_app. now right. }
  destruct (trans_all c s Hc Hs (ops_of m done) (r_instr o) Hlive) as (is0 & E1 & E2 & E3 & E4). rewrite E1. cbn [bind].
  set (ops' := flat_map (ops_of m done) (r_instr o)) in *.
  assert (T0 : Permutation (toggles false ops') (zunion (m_st m) done)) by exact (all_toggles false m done (r_instr o) O3).
  assert (NT0 : NoDup (toggles false ops')) by (eapply Permutation_NoDup; [symmetry; exact T0|apply zsorted_NoDup, zunion_sorted, M2]).
  assert (S0 : forall i, In i (zsymdiff [] (toggles false ops')) <-> In i (m_st m) \/ In i done).
  { intros i. rewrite zsymdiff_In by exact NT0. rewrite <- zunion_In. split; [intros [[[] _]|[_ A]]; eapply Permutation_in; eassumption|intros A; right; split; [tauto|]; eapply Permutation_in; [symmetry; eassumption|exact A]]. }
  assert (Nil : zsorted []) by constructor.
  set (st := zsymdiff [] (toggles false ops')) in *.
  assert (Hst_s : zsorted st) by (now apply zsymdiff_sorted).
  assert (Hcur' : forall i, In i (zsymdiff cur st) <-> In i kept \/ In i (m_st m)).
  { intros i. rewrite zsymdiff_In by (now apply zsorted_NoDup). rewrite S0, Hdone. split.
    - intros [[A B]|[A [B|[B _]]]]; [|now right|contradiction]. left. destruct (in_dec Z.eq_dec i kept); [assumption|]. exfalso. apply B. right. auto.
    - intros [A|A].
      + left. split; [now apply Hkept|]. intros [C|[_ C]]; [|contradiction]. apply (Hst i); [apply in_or_app; now left|now apply Hkept].
      + right. split; [apply Hst; apply in_or_app; now left|now left]. }
  assert (Hcl : clones_live s ops').
  { split; [intros e i v H|intros e i st' H]; unfold ops' in H; apply in_flat_map in H as (oc & _ & H); apply (Hlive oc) in H as [H _]; [exact H|].
    destruct H as [H1 H2]. exact (live_xrange c s Hc Hs _ _ H1 H2). }
  rewrite execute_find. assert (Ek : mk_code c s (k_groups k) = k) by (destruct k; reflexivity). rewrite Ek.
  destruct (execute_ops (r_refs o) k (flat_map snd is0) gid) as [[k1 hd]|] eqn:Ex; [|discriminate]. cbn [bind]. intros R. injection R as -> ->.
  exists kept, done, hs, m. split; [|exists hd; exact Ex]. split; auto.
  - intros i Hi. apply Z5. eapply Permutation_in; [symmetry; apply O2|exact Hi].
  - now apply zsymdiff_sorted.
Qed.

(** ** No storing operation among the instructions *)

Lemma instr_forall (P : op -> Prop) c s (f : opcode -> list op) : forall ocs is,
  (forall ops ops', hg_to_lru_ops c s ops = Ok ops' -> Forall P ops' -> Forall P ops) ->
  mapm (fun oc => let* ops := hg_to_lru_ops c s (f oc) in Ok (oc, ops)) ocs = Ok is ->
  Forall P (flat_map snd is) -> Forall P (flat_map f ocs).
Proof.
  induction ocs as [|oc ocs IH]; intros is HP E F; cbn [mapm] in E; [injection E as <-; constructor|].
  destruct (hg_to_lru_ops c s (f oc)) as [ops'|] eqn:E1; [|discriminate]. cbn [bind] in E.
  destruct (mapm _ ocs) as [r|]; [|discriminate]. cbn [bind] in E. injection E as <-. cbn [flat_map snd] in *.
  apply Forall_app in F as [F1 F2]. apply Forall_app. split; [exact (HP _ _ E1 F1)|]. now apply (IH r).
Qed.

Lemma plain_back c s ops ops' : hg_to_lru_ops c s ops = Ok ops' -> Forall (fun o => ~ storing o) ops' -> Forall (fun o => ~ storing o) ops.
Proof. intros E F. apply Forall_Exists_neg. apply hg_to_lru_storing in E as [E _]. rewrite E. now apply Forall_Exists_neg. Qed.

Lemma plain_lists m done ocs : Permutation ocs all_opcodes -> Forall (fun o => ~ storing o) (flat_map (ops_of m done) ocs) ->
  m_sclone m = [] /\ m_skvsto m = [].
Proof.
  intros P F. rewrite Forall_forall in F.
  assert (I1 : In (Clone, false) ocs) by (eapply Permutation_in; [symmetry; exact P|cbn; tauto]).
  assert (I2 : In (Kvsto, false) ocs) by (eapply Permutation_in; [symmetry; exact P|cbn; tauto]). split.
  - destruct (m_sclone m) as [|[i v] r] eqn:E; [reflexivity|exfalso]. apply (F (OClone false i v)); [|exact I].
    apply in_flat_map. exists (Clone, false). split; [exact I1|]. cbn [ops_of]. rewrite E. now left.
  - destruct (m_skvsto m) as [|[i v] r] eqn:E; [reflexivity|exfalso]. apply (F (OKvsto false i v)); [|exact I].
    apply in_flat_map. exists (Kvsto, false). split; [exact I2|]. cbn [ops_of]. rewrite E. now left.
Qed.

(** What the loop over the headers makes of each. *)
Lemma make_fold_each c s : c_only_e c = false -> forall L,
  let m := fold_left (make_op c s) L (mk_m [] [] [] [] []) in
  m_et m = [] /\
  (forall p, In p L -> (exists v, snd (find_entry_idx s (fst p) (snd p)) = Some v /\ In v (m_st m)) \/
     (fst p = lit ":path" /\ (exists kk, find_entry_idx s (fst p) (snd p) = (Some kk, None)) /\ exists i, In (i, snd p) (m_eclone m)) \/
     (exists i, In (i, snd p) (m_sclone m)) \/ In p (m_skvsto m)) /\
  (forall x, In x (m_eclone m) -> In (lit ":path", snd x) L) /\
  (length (m_eclone m) <= length (filter (fun p => str_eqb (fst p) (lit ":path")) L))%nat.
Proof.
  intros He. induction L as [|p L IH] using rev_ind; cbv zeta; [split; [reflexivity|split; [intros ? []|split; [intros ? []|cbn; lia]]]|].
  rewrite fold_left_app. cbn [fold_left]. set (m := fold_left (make_op c s) L _) in *. cbv zeta in IH. destruct IH as (I1 & I2 & I3 & I4).
  rewrite filter_app, app_length.
  assert (G : forall m', m_et m' = [] -> (forall x, In x (m_st m) -> In x (m_st m')) -> (forall x, In x (m_sclone m) -> In x (m_sclone m')) ->
    (forall x, In x (m_skvsto m) -> In x (m_skvsto m')) -> (forall x, In x (m_eclone m) -> In x (m_eclone m')) ->
    ((exists v, snd (find_entry_idx s (fst p) (snd p)) = Some v /\ In v (m_st m')) \/
     (fst p = lit ":path" /\ (exists kk, find_entry_idx s (fst p) (snd p) = (Some kk, None)) /\ exists i, In (i, snd p) (m_eclone m')) \/
     (exists i, In (i, snd p) (m_sclone m')) \/ In p (m_skvsto m')) ->
    (forall x, In x (m_eclone m') -> In (lit ":path", snd x) (L ++ [p])) ->
    (length (m_eclone m') <= length (filter (fun p => str_eqb (fst p) (lit ":path")) L) + length (filter (fun p => str_eqb (fst p) (lit ":path")) [p]))%nat ->
    m_et m' = [] /\ (forall q, In q (L ++ [p]) -> (exists v, snd (find_entry_idx s (fst q) (snd q)) = Some v /\ In v (m_st m')) \/
     (fst q = lit ":path" /\ (exists kk, find_entry_idx s (fst q) (snd q) = (Some kk, None)) /\ exists i, In (i, snd q) (m_eclone m')) \/
     (exists i, In (i, snd q) (m_sclone m')) \/ In q (m_skvsto m')) /\
    (forall x, In x (m_eclone m') -> In (lit ":path", snd x) (L ++ [p])) /\
    (length (m_eclone m') <= length (filter (fun p => str_eqb (fst p) (lit ":path")) L) + length (filter (fun p => str_eqb (fst p) (lit ":path")) [p]))%nat).
  { intros m' A1 A2 A3 A4 A5 A6 A7 A8. split; [exact A1|]. split; [|split; [exact A7|exact A8]]. intros q Hq. apply in_app_iff in Hq as [Hq|[<-|[]]]; [|exact A6].
    destruct (I2 q Hq) as [(v & B1 & B2)|[(B1 & B2 & i & B3)|[(i & B)|B]]]; [left; eauto|right; left; eauto 6|right; right; left; eauto|right; right; right; auto]. }
  assert (O1 : forall x, In x (m_eclone m) -> In (lit ":path", snd x) (L ++ [p])) by (intros x Hx; apply in_or_app; left; auto).
  destruct p as [key val]. unfold make_op. cbn [fst snd] in *. destruct (find_entry_idx s key val) as [ke ve] eqn:Ef.
  destruct ve as [v|].
  - rewrite He. assert (G1 := G (mk_m (zadd v (m_st m)) (m_et m) (m_sclone m) (m_eclone m) (m_skvsto m))). cbn [m_et m_st m_sclone m_eclone m_skvsto] in G1.
    destruct ke; (apply G1; clear G G1; cbn [snd]; auto; [intros x Hx; apply zadd_In; auto|left; exists v; split; [reflexivity|apply zadd_In; auto]|lia]).
  - destruct ke as [k|].
    + destruct (str_eqb_spec key (lit ":path")) as [->|Np]; apply G; clear G; cbn [m_et m_st m_sclone m_eclone m_skvsto snd fst]; auto;
        try (intros x Hx; apply in_or_app; now left); try lia.
      * right. left. split; [reflexivity|]. split; [eauto|]. exists k. apply in_or_app. right. now left.
      * intros x Hx. apply in_app_iff in Hx as [Hx|[<-|[]]]; [auto|]. cbn [snd]. apply in_or_app. right. now left.
      * cbn [filter fst]. rewrite str_eqb_refl. rewrite app_length. cbn [length]. lia.
      * right. right. left. exists k. apply in_or_app. right. now left.
    + apply G; clear G; cbn [m_et m_st m_sclone m_eclone m_skvsto snd fst]; auto;
        try (intros x Hx; apply in_or_app; now left); try lia.
      right. right. right. apply in_or_app. right. now left.
Qed.

(** ** A group which is exactly the message *)

Record settled (k : code) (d : hdict) (gid : N) : Prop := {
  sd_in : forall i, In i (cur_of k gid) -> In (kvof (k_store k) i) (headers_set d);
  sd_once : NoDup (map (kvof (k_store k)) (cur_of k gid));
  sd_rest : forall p, In p (headers_set d) -> In p (map (kvof (k_store k)) (cur_of k gid)) \/
    (fst p = lit ":path" /\ exists kk, find_entry_idx (k_store k) (fst p) (snd p) = (Some kk, None)) }.

Lemma plain_settles o k d gid k' is : kinv k -> order_ok o -> headers_bytes d ->
  c_hg_adjust (k_cfg k) = false -> c_only_e (k_cfg k) = false ->
  make_operations o k d gid = Ok (k', is) -> Forall (fun x => ~ storing x) (flat_map snd is) ->
  settled k' d gid /\ k_cfg k' = k_cfg k /\ k_store k' = k_store k /\ gget (k_groups k') gid = Some (cur_of k' gid).
Proof.
  intros K Ho Hb Ha He E Hn. pose proof Ho as [O1 O2 O3 O4]. destruct (make_parts o k d gid k' is K Ho Hb E) as (kept & done & hs & m & P & hd & X). destruct P.
  assert (Hn' : Forall (fun x => ~ storing x) (flat_map (ops_of m done) (r_instr o))).
  { eapply instr_forall; [|exact pt_is0|exact Hn]. intros ops ops'. apply plain_back. }
  pose proof (execute_plain _ _ _ _ _ _ _ K Ha pt_back0 pt_live0 Hn' X) as Ek.
  destruct (plain_lists _ _ _ O3 Hn') as [Q1 Q2].
  destruct (make_fold_each (k_cfg k) (k_store k) He (r_headers o hs)) as (F1 & F2 & _). rewrite <- pt_m0 in F1, F2.
  set (cur' := zsymdiff (cur_of k gid) (zsymdiff [] (toggles false (flat_map (ops_of m done) (r_instr o))))) in *.
  assert (Ec : cur_of k' gid = cur'). { rewrite Ek. unfold cur_of. cbn [k_groups]. rewrite find_gset, gget_gset. reflexivity. }
  assert (Es : k_store k' = k_store k) by (now rewrite Ek).
  split; [|split; [now rewrite Ek|split; [exact Es|]]].
  2:{ rewrite Ec, Ek. cbn [k_groups]. apply gget_gset. }
  rewrite F1, Q1, Q2, app_nil_r in pt_all0. cbn [app] in pt_all0.
  destruct (headers_set_ok d) as [Hnd _].
  assert (N1 : NoDup (map (kvof (k_store k)) (kept ++ m_st m))).
  { eapply NoDup_app_l. eapply Permutation_NoDup; [exact pt_all0|exact Hnd]. }
  assert (Pc : Permutation cur' (kept ++ m_st m)).
  { apply NoDup_Permutation; [now apply zsorted_NoDup|exact (NoDup_map_inv _ _ N1)|]. intros i. rewrite pt_cur0, in_app_iff. tauto. }
  split; rewrite ?Ec, ?Es.
  - intros i Hi. eapply Permutation_in; [symmetry; exact pt_all0|]. apply in_or_app. left. apply in_map. eapply Permutation_in; [exact Pc|exact Hi].
  - eapply Permutation_NoDup; [apply Permutation_map; symmetry; exact Pc|exact N1].
  - intros p Hp. assert (Hp2 := Hp). apply (Permutation_in _ pt_split0) in Hp. apply in_app_iff in Hp as [Hp|Hp].
    + left. apply in_map_iff in Hp as (i & <- & Hi). apply in_map. apply pt_cur0. now left.
    + assert (Hp' : In p (r_headers o hs)) by (eapply Permutation_in; [symmetry; apply O1|exact Hp]).
      destruct (F2 p Hp') as [(v & B1 & B2)|[(B1 & B2 & _)|[(i & B)|B]]].
      * left. pose proof K as [Hc Hs Hg]. destruct (find_entry_idx (k_store k) (fst p) (snd p)) as [ke ve] eqn:Ef. cbn [snd] in B1. subst ve.
        destruct (find_idx_ok (k_cfg k) (k_store k) Hc Hs _ _ _ _ Ef) as [[_ V] _]. apply in_map_iff. exists v. split; [rewrite V; now destruct p|].
        apply pt_cur0. now right.
      * right. auto.
      * rewrite Q1 in B. destruct B.
      * rewrite Q2 in B. destruct B.
Qed.

Lemma ranges_nil : figure_out_ranges [] = ([], []).
Proof. reflexivity. Qed.

Lemma zsymdiff_nil z : zsymdiff z [] = z.
Proof. reflexivity. Qed.

Lemma gset_same g id s : gget g id = Some s -> gset g id s = g.
Proof.
  induction g as [|[i t] g IH]; cbn; [discriminate|]. destruct (N.eqb_spec i id) as [->|N]; intros E; [congruence|]. now rewrite IH.
Qed.

Lemma ecl_values c s ops' : forall l, hg_to_lru_ops c s (map (fun r : Z * str => OClone true (fst r) (snd r)) l) = Ok ops' ->
  Forall2 (fun x o => exists i, o = OClone true i (snd x)) l ops'.
Proof.
  unfold hg_to_lru_ops. destruct (c_from_end c); intros l E.
  - apply mapm_forall2 in E. remember (map _ l) as ops eqn:Eo. revert l Eo. induction E as [|x y ops ops' Hxy _ IH]; intros l Eo.
    + destruct l; [constructor|discriminate].
    + destruct l as [|z l]; [discriminate|]. cbn [map] in Eo. injection Eo as -> Eo. constructor; [|now apply IH].
      cbn [map_index] in Hxy. destruct (hg_to_lru s (fst z)) as [j|]; [|discriminate]. cbn [bind] in Hxy. injection Hxy as <-. eauto.
  - injection E as <-. induction l as [|x l IH]; cbn [map]; constructor; eauto.
Qed.

(** A repetition on such a group. *)
Lemma settled_step o k d gid k' is : kinv k -> order_ok o -> headers_bytes d ->
  c_hg_adjust (k_cfg k) = false -> c_only_e (k_cfg k) = false -> settled k d gid ->
  make_operations o k d gid = Ok (k', is) ->
  k' = mk_code (k_cfg k) (k_store k) (gset (k_groups k) gid (cur_of k gid)) /\
  Forall (fun x => exists i v, x = OClone true i v /\ In (lit ":path", v) (headers_set d)) (flat_map snd is) /\
  (length (flat_map snd is) <= length (filter (fun p => str_eqb (fst p) (lit ":path")) (headers_set d)))%nat.
Proof.
  intros K Ho Hb Ha He [D1 D2 D3] E. pose proof Ho as [O1 O2 O3 O4]. destruct (make_parts o k d gid k' is K Ho Hb E) as (kept & done & hs & m & P & hd & X). destruct P.
  destruct (headers_set_ok d) as [Hnd _].
  assert (Hall : forall i, In i (cur_of k gid) -> In i kept).
  { intros i Hi. pose proof (D1 i Hi) as H. apply (Permutation_in _ pt_split0) in H. apply in_app_iff in H as [H|H]; [|exfalso; exact (pt_gone0 i Hi H)].
    apply in_map_iff in H as (j & Ej & Hj). pose proof (pt_kept0 j Hj) as Hj'.
    assert (J : forall (l : list Z) a b, NoDup (map (kvof (k_store k)) l) -> In a l -> In b l -> kvof (k_store k) a = kvof (k_store k) b -> a = b).
    { clear. induction l as [|x l IH]; intros a b Hn Ia Ib Eab; [destruct Ia|]. cbn [map] in Hn. inversion Hn as [|? ? N1 N2]; subst.
      destruct Ia as [->|Ia], Ib as [->|Ib]; auto; exfalso; apply N1; [rewrite Eab|rewrite <- Eab]; now apply in_map. }
    now rewrite (J _ _ _ D2 Hi Hj' (eq_sym Ej)). }
  assert (Ed : done = []). { destruct done as [|i r]; [reflexivity|exfalso]. destruct (proj1 (pt_done0 i) (or_introl eq_refl)) as [A B]. auto. }
  assert (Hhs : forall p, In p (r_headers o hs) -> fst p = lit ":path" /\ exists kk, find_entry_idx (k_store k) (fst p) (snd p) = (Some kk, None)).
  { intros p Hp. apply (Permutation_in _ (O1 hs)) in Hp.
    assert (Hp2 : In p (headers_set d)) by (eapply Permutation_in; [symmetry; exact pt_split0|]; apply in_or_app; now right).
    destruct (D3 p Hp2) as [H|H]; [|exact H]. exfalso. apply in_map_iff in H as (i & <- & Hi). exact (pt_gone0 i Hi Hp). }
  assert (Hm : m_st m = [] /\ m_et m = [] /\ m_sclone m = [] /\ m_skvsto m = []).
  { rewrite pt_m0. generalize (r_headers o hs) Hhs. intros L. pose proof K as [Hc Hs Hg].
    induction L as [|p L IH] using rev_ind; intros HL; [repeat split|]. rewrite fold_left_app. cbn [fold_left].
    destruct IH as (A1 & A2 & A3 & A4); [intros q Hq; apply HL, in_or_app; now left|].
    set (mm := fold_left _ L _) in *. destruct p as [key val]. destruct (HL (key, val)) as [B1 B2]; [apply in_or_app; right; now left|]. cbn [fst snd] in B1, B2. subst key.
    destruct B2 as [kk B2]. unfold make_op. rewrite B2, str_eqb_refl. cbn [m_st m_et m_sclone m_skvsto]. auto. }
  destruct Hm as (Q1 & Q2 & Q3 & Q4).
  assert (Hops : forall oc, ops_of m done oc = if match oc with (Clone, true) => true | _ => false end
                   then map (fun r => OClone true (fst r) (snd r)) (m_eclone m) else []).
  { intros [[] []]; cbn [ops_of]; rewrite ?Q1, ?Q2, ?Q3, ?Q4, ?Ed; cbn [zunion fold_left]; rewrite ?ranges_nil; reflexivity. }
  assert (Hpass : Forall (fun x => ~ storing x) (flat_map (ops_of m done) (r_instr o))).
  { apply Forall_forall. intros x Hx. apply in_flat_map in Hx as (oc & _ & Hx). rewrite Hops in Hx.
    destruct (match oc with (Clone, true) => true | _ => false end); [|destruct Hx]. apply in_map_iff in Hx as (r & <- & _). cbn. tauto. }
  assert (Ht : toggles false (flat_map (ops_of m done) (r_instr o)) = []).
  { apply Permutation_nil. rewrite (all_toggles false m done (r_instr o) O3), Q1, Ed. reflexivity. }
  pose proof (execute_plain _ _ _ _ _ _ _ K Ha pt_back0 pt_live0 Hpass X) as Ek. rewrite Ht in Ek. cbn [zsymdiff] in Ek. rewrite !zsymdiff_nil in Ek.
  split; [exact Ek|].
  destruct (make_fold_each (k_cfg k) (k_store k) He (r_headers o hs)) as (_ & _ & F3 & F4). rewrite <- pt_m0 in F3, F4.
  assert (Nin : NoDup (r_instr o)). { eapply Permutation_NoDup; [symmetry; exact O3|]. unfold all_opcodes. repeat constructor; cbn; intuition discriminate. }
  assert (G : exists ops, flat_map snd is = ops /\ (ops = [] \/ hg_to_lru_ops (k_cfg k) (k_store k) (map (fun r => OClone true (fst r) (snd r)) (m_eclone m)) = Ok ops)).
  { eexists. split; [reflexivity|]. clear - pt_is0 Hops Nin. revert is pt_is0. induction (r_instr o) as [|oc ocs IH]; intros is E; cbn [mapm] in E; [injection E as <-; now left|].
    inversion Nin as [|? ? N1 N2]; subst. destruct (hg_to_lru_ops _ _ (ops_of m done oc)) as [ops'|] eqn:E1; [|discriminate]. cbn [bind] in E.
    destruct (mapm _ ocs) as [r|] eqn:E2; [|discriminate]. cbn [bind] in E. injection E as <-. cbn [flat_map snd].
    rewrite Hops in E1. destruct oc as [[] []]; cbn [fst snd] in E1;
      try (assert (Eo : ops' = []) by (unfold hg_to_lru_ops in E1; destruct (c_from_end (k_cfg k)); cbn in E1; congruence); subst ops'; cbn [app]; now apply IH).
    right. assert (Er : flat_map snd r = []); [|now rewrite Er, app_nil_r].
    clear IH N2 Nin E1. revert r E2 N1. induction ocs as [|oc ocs IH]; intros r E N1; cbn [mapm] in E; [injection E as <-; reflexivity|].
    destruct (hg_to_lru_ops _ _ (ops_of m done oc)) as [ops2|] eqn:E1; [|discriminate]. cbn [bind] in E.
    destruct (mapm _ ocs) as [r2|] eqn:E2; [|discriminate]. cbn [bind] in E. injection E as <-. cbn [flat_map snd].
    rewrite (IH r2 eq_refl) by (intros C; apply N1; now right). rewrite app_nil_r. rewrite Hops in E1.
    destruct oc as [[] []]; try (exfalso; apply N1; now left); unfold hg_to_lru_ops in E1; destruct (c_from_end (k_cfg k)); cbn in E1; congruence. }
  destruct G as (ops & -> & [->|G]); [split; [constructor|cbn; lia]|].
  apply ecl_values in G. split.
  - apply Forall_forall. intros x Hx. clear - G Hx F3 O1 pt_split0. 
    assert (W : exists r, In r (m_eclone m) /\ exists i, x = OClone true i (snd r)).
    { clear - G Hx. induction G as [|a b l l' H _ IH]; [destruct Hx|]. destruct Hx as [->|Hx]; [exists a; split; [now left|exact H]|].
      destruct (IH Hx) as (r & A & B). exists r. split; [now right|exact B]. }
    destruct W as (r & Hr & i & ->). exists i, (snd r). split; [reflexivity|]. apply F3 in Hr.
    eapply Permutation_in; [symmetry; exact pt_split0|]. apply in_or_app. right. eapply Permutation_in; [apply O1|exact Hr].
  - assert (L : length (m_eclone m) = length ops) by (clear - G; induction G; cbn; congruence). rewrite <- L. etransitivity; [exact F4|].
    assert (Pf : forall (f : str * str -> bool) a b, Permutation a b -> length (filter f a) = length (filter f b)).
    { clear. intros f a b P. induction P as [|x a b _ IH|x y a|a b c _ IH1 _ IH2]; cbn; [reflexivity| | |congruence].
      - destruct (f x); cbn; congruence.
      - destruct (f x), (f y); reflexivity. }
    rewrite (Pf _ _ _ pt_split0), filter_app, app_length. rewrite (Pf _ _ _ (O1 hs)). lia.
Qed.

(** ** Headers which are in the table *)

(** Every header of the message is in the table, or is a path. *)
Definition known (s : storage) (d : hdict) : Prop := forall p, In p (headers_set d) ->
  (exists v, snd (find_entry_idx s (fst p) (snd p)) = Some v) \/
  (fst p = lit ":path" /\ exists kk, find_entry_idx s (fst p) (snd p) = (Some kk, None)).

Lemma storing_forward c s (f : opcode -> list op) : forall ocs is,
  mapm (fun oc => let* ops := hg_to_lru_ops c s (f oc) in Ok (oc, ops)) ocs = Ok is ->
  Forall (fun o => ~ storing o) (flat_map f ocs) -> Forall (fun o => ~ storing o) (flat_map snd is).
Proof.
  induction ocs as [|oc ocs IH]; intros is E F; cbn [mapm] in E; [injection E as <-; constructor|].
  destruct (hg_to_lru_ops c s (f oc)) as [ops'|] eqn:E1; [|discriminate]. cbn [bind] in E.
  destruct (mapm _ ocs) as [r|]; [|discriminate]. cbn [bind] in E. injection E as <-. cbn [flat_map snd] in *.
  apply Forall_app in F as [F1 F2]. apply Forall_app. split; [|now apply (IH r)].
  apply Forall_Exists_neg. apply hg_to_lru_storing in E1 as [E1 _]. rewrite <- E1. now apply Forall_Exists_neg.
Qed.

Lemma ops_plain m done ocs : m_sclone m = [] -> m_skvsto m = [] -> Forall (fun o => ~ storing o) (flat_map (ops_of m done) ocs).
Proof.
  intros Q1 Q2. apply Forall_forall. intros x Hx. apply in_flat_map in Hx as ([[] e] & _ & Hx); cbn [ops_of] in Hx.
  - apply in_map_iff in Hx as (y & <- & _). destruct e; cbn; tauto.
  - apply in_map_iff in Hx as (y & <- & _). destruct e; cbn; tauto.
  - destruct e; [|rewrite Q1 in Hx; destruct Hx]. apply in_map_iff in Hx as (y & <- & _). cbn. tauto.
  - destruct e; [destruct Hx|rewrite Q2 in Hx; destruct Hx].
Qed.

Lemma known_plain o k d gid k' is : kinv k -> order_ok o -> headers_bytes d -> known (k_store k) d ->
  make_operations o k d gid = Ok (k', is) -> Forall (fun x => ~ storing x) (flat_map snd is).
Proof.
  intros K Ho Hb Hk E. pose proof Ho as [O1 O2 O3 O4]. destruct (make_parts o k d gid k' is K Ho Hb E) as (kept & done & hs & m & P & _). destruct P.
  eapply storing_forward; [exact pt_is0|]. assert (Q : m_sclone m = [] /\ m_skvsto m = []); [|apply ops_plain; apply Q].
  assert (HL : forall p, In p (r_headers o hs) -> In p (headers_set d)).
  { intros p Hp. eapply Permutation_in; [symmetry; exact pt_split0|]. apply in_or_app. right. eapply Permutation_in; [apply O1|exact Hp]. }
  rewrite pt_m0. clear - HL Hk. generalize (r_headers o hs) HL. clear HL. intros L.
  induction L as [|p L IH] using rev_ind; intros HL; [split; reflexivity|]. rewrite fold_left_app. cbn [fold_left].
  destruct IH as [A1 A2]; [intros q Hq; apply HL, in_or_app; now left|]. set (mm := fold_left _ L _) in *. destruct p as [key val].
  destruct (Hk (key, val)) as [[v B]|[B1 [kk B2]]]; [apply HL, in_or_app; right; now left| |]; cbn [fst snd] in *; unfold make_op.
  - destruct (find_entry_idx (k_store k) key val) as [ke ve]. cbn [snd] in B. subst ve. destruct ke; destruct (c_only_e (k_cfg k)); cbn; auto.
  - rewrite B2, B1, str_eqb_refl. cbn. auto.
Qed.

(** ** Looking for what is there *)

Lemma find_exact_there r key val : (exists e q, In (e, q) r /\ kv_key e = key /\ kv_val e = val) -> exists v, find_exact r key val = Some v.
Proof.
  induction r as [|[e q] r IH]; intros (e' & q' & H & E1 & E2); [destruct H|]. cbn [find_exact].
  destruct (str_eqb_spec (kv_key e) key) as [F1|F1]; cbn [andb]; [destruct (str_eqb_spec (kv_val e) val) as [F2|F2]; [eauto|]|];
    (destruct H as [H|H]; [injection H as -> ->; congruence|apply IH; eauto]).
Qed.
Lemma find_loop_there r key val :
  ((exists e q, In (e, q) r /\ kv_key e = key) -> exists v, fst (find_loop r key val) = Some v) /\
  ((exists e q, In (e, q) r /\ kv_key e = key /\ kv_val e = val) -> exists v, snd (find_loop r key val) = Some v).
Proof.
  induction r as [|[e q] r [IH1 IH2]]; [split; [intros (? & ? & [] & _)|intros (? & ? & [] & _)]|]. cbn [find_loop].
  destruct (str_eqb_spec (kv_key e) key) as [F1|F1].
  - destruct (str_eqb_spec (kv_val e) val) as [F2|F2]; [split; intros _; cbn; eauto|].
    destruct (find_exact r key val) as [x|] eqn:Ex; [split; intros _; cbn; eauto|]. split; [intros _; cbn; eauto|].
    intros (e' & q' & H & E1 & E2). destruct H as [H|H]; [injection H as -> ->; congruence|].
    destruct (find_exact_there r key val) as [v V]; [eauto|]. congruence.
  - split.
    + intros (e' & q' & H & E1). destruct H as [H|H]; [injection H as -> ->; congruence|]. apply IH1. eauto.
    + intros (e' & q' & H & E1 & E2). destruct H as [H|H]; [injection H as -> ->; congruence|]. apply IH2. eauto.
Qed.

Lemma find_entries_there l key val :
  ((exists e q, In (e, q) (l_ring l) /\ kv_key e = key) -> exists v, fst (find_entries l key val) = Some v) /\
  ((exists e q, In (e, q) (l_ring l) /\ kv_key e = key /\ kv_val e = val) -> exists v, snd (find_entries l key val) = Some v).
Proof.
  unfold find_entries. destruct (find_loop_there (rev (l_ring l)) key val) as [A B]. split.
  - intros (e & q & H & E). apply A. exists e, q. split; [now apply -> in_rev|exact E].
  - intros (e & q & H & E). apply B. exists e, q. split; [now apply -> in_rev|exact E].
Qed.

Lemma find_there c s key val : cfg_ok c -> sinv c s ->
  ((exists e q, in_table s e q /\ kv_key e = key) -> exists v, fst (find_entry_idx s key val) = Some v) /\
  ((exists e q, in_table s e q /\ kv_key e = key /\ kv_val e = val) -> exists v, snd (find_entry_idx s key val) = Some v).
Proof.
  intros Hc Hs. unfold find_entry_idx. destruct (find_entries (s_lru s) key val) as [ke1 ve1] eqn:E1.
  destruct (find_entries_there (s_lru s) key val) as [A1 B1]. destruct (find_entries_there (s_static s) key val) as [A2 B2].
  pose proof (find_entries_some _ _ _ _ _ E1) as [S1 S2]. rewrite E1 in A1, B1. cbn [fst snd] in A1, B1.
  assert (Q : forall q, ke1 = Some q -> q <> 0).
  { intros q ->. destruct S2 as (e & He & _). apply In_nth_error in He as (i & Hi). pose proof Hs as [_ L _ _ _].
    assert (HO : 0 <= 65 < c_max_index c) by (destruct Hc; lia). pose proof (linv_range _ _ HO _ _ _ L Hi) as R. cbn [snd] in R. lia. }
  destruct ve1 as [v1|]; [split; intros H; cbn [fst snd]; [|eauto]|].
  - destruct S1 as (e & He & Ek & _). destruct A1 as [v V]; [eauto|]. rewrite V. eauto.
  - split.
    + intros (e & q & [T|T] & E).
      * destruct ke1 as [q1|]; [destruct (Z.eqb_spec q1 0); [exfalso; eapply Q; eauto|cbn; eauto]|]. apply A2. eauto.
      * destruct A1 as [v V]; [eauto|]. rewrite V. destruct (Z.eqb_spec v 0) as [Z|Z]; [exfalso; eapply Q; eauto|]. cbn. eauto.
    + intros (e & q & [T|T] & E).
      * destruct B2 as [v V]; [eauto|]. destruct (match ke1 with Some k => negb (k =? 0) | None => false end); [cbn; rewrite V|rewrite V]; eauto.
      * destruct B1 as [v V]; [eauto|]. discriminate.
Qed.

(** ** Room in the table *)

(** The octets of a list of headers. *)
Definition octets (l : list (str * str)) : Z :=
  fold_right (fun p a => Z.of_nat (length (fst p)) + Z.of_nat (length (snd p)) + a) 0 l.
(** The table has room for every header of the message. *)
Definition room (k : code) (d : hdict) : Prop :=
  0 < c_max_byte_size (k_cfg k) /\ 0 < c_max_entries (k_cfg k) /\
  ring_len (s_lru (k_store k)) + Z.of_nat (length (headers_set d)) <= c_max_entries (k_cfg k) /\
  l_bytes (s_lru (k_store k)) + octets (headers_set d) <= c_max_byte_size (k_cfg k).

Definition kvp (e : kv) : str * str := (kv_key e, kv_val e).
Definition slits (s : storage) (ops : list op) : list (str * str) :=
  flat_map (fun o => match o with OClone false i v => [(fst (kvof s i), v)] | OKvsto false k v => [(k, v)] | _ => [] end) ops.

Lemma octets_app a b : octets (a ++ b) = octets a + octets b.
Proof. induction a as [|p a IH]; [reflexivity|]. cbn [app octets fold_right]. unfold octets in *. rewrite IH. lia. Qed.
Lemma octets_nonneg a : 0 <= octets a.
Proof. induction a as [|p a IH]; [cbn; lia|]. unfold octets in *. cbn [fold_right]. lia. Qed.
Lemma octets_perm a b : Permutation a b -> octets a = octets b.
Proof. intros P. induction P; unfold octets in *; cbn [fold_right]; lia. Qed.

Lemma kv_size_bound h e : 0 <= kv_size h e <= Z.of_nat (length (kv_key e)) + Z.of_nat (length (kv_val e)).
Proof. unfold kv_size, ref_len. destruct (1 <? refcnt h (kv_vc e)), (1 <? refcnt h (kv_kc e)); lia. Qed.

Lemma exec_later c s : cfg_ok c -> sinv c s -> forall ops x x', clones_live s ops -> exec_loop s x ops = Ok x' ->
  map kvp (x_later x') = map kvp (x_later x) ++ slits s ops.
Proof.
  intros Hc Hs. induction ops as [|o ops IH]; intros x x' Hl E; cbn [exec_loop] in E; [injection E as <-; cbn; now rewrite app_nil_r|].
  assert (Hl' : clones_live s ops) by (destruct Hl as [H1 H2]; split; intros; [eapply H1|eapply H2]; right; eassumption).
  destruct (exec_op s x o) as [x1|] eqn:E1; [|discriminate]. cbn [bind] in E. rewrite (IH x1 x' Hl' E). clear IH E.
  unfold slits. cbn [flat_map]. rewrite app_assoc. f_equal. destruct o as [e i|e i st|e i v|e k v]; cbn [exec_op] in E1.
  - injection E1 as <-. rewrite app_nil_r. destruct e; reflexivity.
  - destruct (xrange_fits st (i + 1)); [|discriminate]. injection E1 as <-. rewrite toggle_fold, app_nil_r. destruct e; reflexivity.
  - destruct (lookup_kvof c s i Hc Hs (proj1 Hl e i v (or_introl eq_refl))) as (e1 & F1 & F2). rewrite F1 in E1. cbn [bind] in E1. cbv zeta in E1. destruct e.
    + injection E1 as <-. cbn. now rewrite app_nil_r.
    + unfold kv_new in E1. cbn [ref_new] in E1. injection E1 as <-. cbn [x_later]. rewrite map_app, F2. reflexivity.
  - cbv zeta in E1. destruct e.
    + injection E1 as <-. cbn. now rewrite app_nil_r.
    + unfold kv_new in E1. cbn [ref_new] in E1. injection E1 as <-. cbn [x_later]. rewrite map_app. reflexivity.
Qed.

Lemma reserve_room h l e me mb : l_items l = Some me -> l_maxb l = Some mb -> 0 < me -> 0 < mb ->
  ring_len l + 1 <= me -> l_bytes l + Z.of_nat (length (kv_key e)) + Z.of_nat (length (kv_val e)) <= mb ->
  reserve h l e 1 = (true, h, l, []).
Proof.
  intros E1 E2 P1 P2 H1 H2. unfold reserve. rewrite E1, E2. destruct me as [|me|]; [lia| |lia]. destruct mb as [|mb|]; [lia| |lia]. cbn [is_zero orb].
  pose proof (kv_size_bound h e) as B.
  assert (W : forall cond fuel p, cond h l = false -> pop_while cond fuel h l p = (true, h, l, p)) by (intros cond [|f] p Q; cbn [pop_while]; now rewrite Q).
  rewrite W by (apply Z.ltb_ge; lia). rewrite E2. apply W. apply Z.ltb_ge. lia.
Qed.

Lemma store_kv_room c gid y k me mb : l_items (s_lru (y_store y)) = Some me -> l_maxb (s_lru (y_store y)) = Some mb -> 0 < me -> 0 < mb ->
  ring_len (s_lru (y_store y)) + 1 <= me -> l_bytes (s_lru (y_store y)) + octets [kvp k] <= mb ->
  exists y' n e q, store_kv c gid y k = Ok (y', n) /\ kvp e = kvp k /\ s_static (y_store y') = s_static (y_store y) /\
    l_ring (s_lru (y_store y')) = l_ring (s_lru (y_store y)) ++ [(e, q)] /\
    l_items (s_lru (y_store y')) = Some me /\ l_maxb (s_lru (y_store y')) = Some mb /\
    l_bytes (s_lru (y_store y')) <= l_bytes (s_lru (y_store y)) + octets [kvp k].
Proof.
  intros E1 E2 P1 P2 H1 H2. unfold store_kv. cbv zeta.
  destruct (kv_new _ _ _) as [h e] eqn:En. assert (Ee : kvp e = kvp k).
  { unfold kv_new in En. destruct (c_refcnt c); cbn [ref_new rarg_str] in En; injection En as _ <-; reflexivity. }
  assert (K1 : kv_key e = kv_key k) by (now injection Ee). assert (K2 : kv_val e = kv_val k) by (now injection Ee).
  unfold octets, kvp in H2 |- *. cbn [fold_right fst snd] in H2 |- *. unfold insert_val. cbn [s_heap s_lru s_static].
  rewrite (reserve_room h (s_lru (y_store y)) e me mb) by (auto; rewrite ?K1, ?K2; lia).
  unfold store. rewrite E1, E2. pose proof (kv_size_bound h e) as B. rewrite K1, K2 in B.
  replace (mb <? l_bytes (s_lru (y_store y)) + kv_size h e) with false by (symmetry; apply Z.ltb_ge; lia).
  replace (me <? ring_len (s_lru (y_store y)) + 1) with false by (symmetry; apply Z.ltb_ge; lia). rewrite andb_false_r. cbv zeta. cbn [bind l_ring]. rewrite dq_last. cbn [bind fold_left].
  eexists _, _, e, _. split; [reflexivity|]. cbn [y_store s_static s_lru l_ring l_items l_maxb l_bytes].
  split; [exact Ee|]. repeat split. lia.
Qed.

Lemma store_loop_room c gid me mb : 0 < me -> 0 < mb -> forall later y y',
  l_items (s_lru (y_store y)) = Some me -> l_maxb (s_lru (y_store y)) = Some mb ->
  ring_len (s_lru (y_store y)) + Z.of_nat (length later) <= me -> l_bytes (s_lru (y_store y)) + octets (map kvp later) <= mb ->
  store_loop c gid y later = Ok y' ->
  s_static (y_store y') = s_static (y_store y) /\
  exists added, l_ring (s_lru (y_store y')) = l_ring (s_lru (y_store y)) ++ added /\ map (fun x => kvp (fst x)) added = map kvp later.
Proof.
  intros P1 P2. induction later as [|k later IH]; intros y y' E1 E2 H1 H2 E; cbn [store_loop] in E.
  - injection E as <-. split; [reflexivity|]. exists []. now rewrite app_nil_r.
  - assert (H2' : l_bytes (s_lru (y_store y)) + octets [kvp k] + octets (map kvp later) <= mb).
    { cbn [map] in H2. change (kvp k :: map kvp later) with ([kvp k] ++ map kvp later) in H2. rewrite octets_app in H2. lia. }
    pose proof (octets_nonneg (map kvp later)) as Nn. cbn [length] in H1.
    destruct (store_kv_room c gid y k me mb E1 E2 P1 P2) as (y1 & n & e & q & F & Fe & Fs & Fr & F1 & F2 & Fb); [lia|lia|].
    rewrite F in E. cbn [bind] in E. set (y2 := match n with Some i => _ | None => _ end) in E.
    assert (Y : y_store y2 = y_store y1).
    { unfold y2. destruct n; [|reflexivity]. destruct (c_implicit c); [|reflexivity]. unfold y_set. destruct (y_orphan y1); reflexivity. }
    destruct (IH y2 y') as (G1 & added & G2 & G3); try (rewrite Y); auto.
    + unfold ring_len in *. rewrite Fr, app_length. cbn [length]. lia.
    + lia.
    + rewrite Y in G1, G2. split; [congruence|]. exists ((e, q) :: added). rewrite G2, Fr, <- app_assoc. split; [reflexivity|].
      cbn [map fst]. now rewrite Fe, G3.
Qed.

Lemma all_slits s m done ocs : Permutation ocs all_opcodes ->
  Permutation (slits s (flat_map (ops_of m done) ocs)) (map (ck s) (m_sclone m) ++ m_skvsto m).
Proof.
  intros P. transitivity (slits s (flat_map (ops_of m done) all_opcodes)); [apply flat_map_perm, flat_map_perm, P|].
  set (g := fun o => match o with OClone false i v => [(fst (kvof s i), v)] | OKvsto false k v => [(k, v)] | _ => [] end).
  unfold all_opcodes, slits. fold g. cbn [flat_map]. rewrite !flat_map_app.
  assert (T : forall e (l : list Z), flat_map g (map (OToggl e) l) = []) by (intros e l; induction l; cbn; auto).
  assert (R : forall e (l : list (Z * Z)), flat_map g (map (fun r => OTrang e (fst r) (snd r)) l) = []) by (intros e l; induction l; cbn; auto).
  assert (C1 : forall l : list (Z * str), flat_map g (map (fun r => OClone true (fst r) (snd r)) l) = []) by (intros l; induction l; cbn; auto).
  assert (C : forall l : list (Z * str), flat_map g (map (fun r => OClone false (fst r) (snd r)) l) = map (ck s) l).
  { intros l. induction l as [|x l IH]; cbn [map flat_map app]; [reflexivity|]. now rewrite IH. }
  assert (K : forall l : list (str * str), flat_map g (map (fun r => OKvsto false (fst r) (snd r)) l) = l).
  { intros l. induction l as [|[x z] l IH]; cbn [map flat_map app fst snd]; [reflexivity|]. now rewrite IH. }
  cbn [ops_of flat_map]. rewrite !T, !R, !C, !C1, !K. cbn [app]. rewrite !app_nil_r. reflexivity.
Qed.

Lemma live_in_table c s i : cfg_ok c -> sinv c s -> live s i -> exists e, in_table s e i /\ kvof s i = kvp e.
Proof.
  intros Hc Hs Hl. destruct (lookup_live c s i Hc Hs Hl) as (e & E & T). exists e. split; [exact T|]. unfold kvof. now rewrite E.
Qed.

Lemma make_eclone_path c s : cfg_ok c -> sinv c s -> forall L, let m := fold_left (make_op c s) L (mk_m [] [] [] [] []) in
  forall x, In x (m_eclone m) -> live s (fst x) /\ fst (kvof s (fst x)) = lit ":path".
Proof.
  intros Hc Hs. induction L as [|p L IH] using rev_ind; cbv zeta in *; [intros x []|]. rewrite fold_left_app. cbn [fold_left]. set (mm := fold_left _ L _) in *.
  intros x Hx. destruct p as [key val]. unfold make_op in Hx. destruct (find_entry_idx s key val) as [ke ve] eqn:Ef. pose proof (find_idx_ok c s Hc Hs _ _ _ _ Ef) as [_ Hk]. destruct ke as [kk|], ve as [v|].
  - destruct (c_only_e c); apply IH; exact Hx.
  - destruct (str_eqb_spec key (lit ":path")) as [->|N]; [|apply IH; exact Hx]. cbn [m_eclone] in Hx. apply in_app_or in Hx as [Hx|[<-|[]]]; [now apply IH|exact Hk].
  - destruct (c_only_e c); apply IH; exact Hx.
  - apply IH; exact Hx.
Qed.

Lemma execute_store ref k ops ops' gid k' hd : kinv k -> c_hg_adjust (k_cfg k) = false ->
  lru_to_hg_ops (k_cfg k) (k_store k) ops = Ok ops' -> clones_live (k_store k) ops' ->
  0 < c_max_byte_size (k_cfg k) -> 0 < c_max_entries (k_cfg k) ->
  ring_len (s_lru (k_store k)) + Z.of_nat (length (slits (k_store k) ops')) <= c_max_entries (k_cfg k) ->
  l_bytes (s_lru (k_store k)) + octets (slits (k_store k) ops') <= c_max_byte_size (k_cfg k) ->
  execute_ops ref k ops gid = Ok (k', hd) ->
  k_cfg k' = k_cfg k /\ s_static (k_store k') = s_static (k_store k) /\
  exists added, l_ring (s_lru (k_store k')) = l_ring (s_lru (k_store k)) ++ added /\
    map (fun x => kvp (fst x)) added = slits (k_store k) ops'.
Proof.
  intros K Ha Eo Hcl R1 R2 R3 R4. pose proof K as [Hc Hs Hg]. unfold execute_ops. cbv zeta. rewrite Eo, Ha. cbn [bind].
  destruct (exec_loop _ _ ops') as [x|] eqn:E; [|discriminate]. cbn [bind].
  pose proof (exec_later _ _ Hc Hs _ _ _ Hcl E) as L. cbn [x_later map app] in L.
  destruct (append_refs _ _ _) as [h|]; [|discriminate]. cbn [bind].
  set (y := y_set gid _ _). destruct (store_loop (k_cfg k) gid y (x_later x)) as [y'|] eqn:Es; [|discriminate]. cbn [bind adjust_loop].
  intros H. injection H as <- _. cbn [k_cfg k_store].
  assert (Ls : s_lru (y_store y) = s_lru (k_store k) /\ s_static (y_store y) = s_static (k_store k)) by (unfold y, y_set; cbn; auto). destruct Ls as [L1 L2].
  pose proof Hs as [_ _ S3 S4 _].
  destruct (store_loop_room (k_cfg k) gid (c_max_entries (k_cfg k)) (c_max_byte_size (k_cfg k)) R2 R1 (x_later x) y y') as (G1 & added & G2 & G3); rewrite ?L1; auto.
  - rewrite <- (map_length kvp), L. exact R3.
  - rewrite L. exact R4.
  - split; [reflexivity|]. split; [congruence|]. exists added. rewrite G2, L1. split; [reflexivity|]. now rewrite G3.
Qed.

(** With room for it, a message is known afterwards. *)
Lemma room_known o k d gid k' is : kinv k -> order_ok o -> headers_bytes d -> c_hg_adjust (k_cfg k) = false -> room k d ->
  make_operations o k d gid = Ok (k', is) -> kinv k' -> k_cfg k' = k_cfg k /\ known (k_store k') d.
Proof.
  intros K Ho Hb Ha (R1 & R2 & R3 & R4) E K'. pose proof K as [Hc Hs _]. pose proof K' as [Hc' Hs' _].
  destruct (make_parts o k d gid k' is K Ho Hb E) as (kept & done & hs & m & P & hd & Ex). destruct P. pose proof Ho as [O1 O2 O3 O4].
  pose proof (all_slits (k_store k) m done (r_instr o) O3) as SL.
  assert (Len : (length (headers_set d) = length (kept ++ m_st m ++ m_et m) + length (m_sclone m ++ m_eclone m) + length (m_skvsto m))%nat).
  { rewrite (Permutation_length pt_all0), !app_length, !map_length, !app_length. lia. }
  assert (Oct : octets (slits (k_store k) (flat_map (ops_of m done) (r_instr o))) <= octets (headers_set d)).
  { rewrite (octets_perm _ _ SL), (octets_perm _ _ pt_all0), !octets_app, (map_app (ck (k_store k))), octets_app.
    pose proof (octets_nonneg (map (kvof (k_store k)) (kept ++ m_st m ++ m_et m))). pose proof (octets_nonneg (map (ck (k_store k)) (m_eclone m))). lia. }
  assert (Sl : (length (slits (k_store k) (flat_map (ops_of m done) (r_instr o))) <= length (headers_set d))%nat).
  { rewrite (Permutation_length SL), app_length, map_length, Len, !app_length. lia. }
  destruct (execute_store (r_refs o) k _ _ gid k' hd K Ha pt_back0 pt_live0 R1 R2) as (G1 & G2 & added & G3 & G4); [lia|lia|exact Ex|].
  split; [exact G1|]. intros p Hp.
  assert (Mono : forall e q, in_table (k_store k) e q -> in_table (k_store k') e q).
  { intros e q [T|T]; [left; rewrite G2; exact T|right; rewrite G3; apply in_or_app; now left]. }
  destruct (find_there _ _ (fst p) (snd p) Hc' Hs') as [F1 F2].
  assert (Full : (exists e q, in_table (k_store k') e q /\ kvp e = p) -> exists v, snd (find_entry_idx (k_store k') (fst p) (snd p)) = Some v).
  { intros (e & q & T & Q). apply F2. exists e, q. subst p. auto. }
  eapply Permutation_in in Hp as Hq; [|exact pt_all0]. apply in_app_or in Hq as [Hq|Hq].
  - apply in_map_iff in Hq as (i & Q & Hi). left. apply Full.
    assert (Li : live (k_store k) i).
    { destruct (cur_of_ok k gid K) as [_ Cl]. rewrite Forall_forall in Cl. apply in_app_or in Hi as [Hi|Hi]; [apply Cl, pt_kept0, Hi|].
      pose proof (make_fold_ok _ _ Hc Hs (r_headers o hs)) as M. rewrite <- pt_m0 in M. destruct M as [_ _ M3 _].
      { eapply Permutation_NoDup; [symmetry; apply O1|]. destruct (headers_set_ok d) as [Nd _]. eapply Permutation_NoDup in Nd; [|exact pt_split0]. now apply NoDup_app_r in Nd. }
      rewrite Forall_forall in M3. now apply M3. }
    destruct (live_in_table _ _ i Hc Hs Li) as (e & T & Ke). exists e, i. split; [now apply Mono|congruence].
  - rewrite map_app, <- app_assoc in Hq. apply in_app_or in Hq as [Hq|Hq]; [|apply in_app_or in Hq as [Hq|Hq]].
    + left. apply Full. assert (I : In p (map (fun x => kvp (fst x)) added)) by (rewrite G4; eapply Permutation_in; [symmetry; exact SL|]; apply in_or_app; now left).
      apply in_map_iff in I as ([e q] & Q & I). exists e, q. split; [right; rewrite G3; apply in_or_app; now right|exact Q].
    + apply in_map_iff in Hq as (x & Q & Hx). rewrite pt_m0 in Hx. destruct (make_eclone_path _ _ Hc Hs _ x Hx) as [Lx Kx].
      unfold ck in Q. rewrite Kx in Q. assert (Kp : fst p = lit ":path") by (now rewrite <- Q).
      destruct F1 as [kk Fk].
      { destruct (live_in_table _ _ (fst x) Hc Hs Lx) as (e & T & Ke). exists e, (fst x). split; [now apply Mono|]. rewrite Kp, <- Kx, Ke. reflexivity. }
      destruct (find_entry_idx (k_store k') (fst p) (snd p)) as [ke [v|]] eqn:Ef; [left; exists v; reflexivity|]. right. split; [exact Kp|]. cbn [fst] in Fk. subst ke. eauto.
    + left. apply Full. assert (I : In p (map (fun x => kvp (fst x)) added)) by (rewrite G4; eapply Permutation_in; [symmetry; exact SL|]; apply in_or_app; now right).
      apply in_map_iff in I as ([e q] & Q & I). exists e, q. split; [right; rewrite G3; apply in_or_app; now right|exact Q].
Qed.
