(** * One message through delta2's codec. *)
From Coq Require Import String List NArith ZArith Bool Arith Lia Permutation Sorted.
From Verif Require Import PyBase PyStr Lib_Model Lib_Proofs D2Huff_Model D2Store_Model D2Store_Proofs Prop_D2Store D2Wire_Model Prop_D2Wire
  D2Code_Model Prop_D2Ranges D2Code_Sets D2Code_Store D2Code_Exec D2Code_Make.
Import ListNotations.
Open Scope Z_scope.
Open Scope py_scope.

Lemma NoDup_app_l {A} (a b : list A) : NoDup (a ++ b) -> NoDup a.
Proof. induction a as [|x a IH]; cbn [app]; intros H; [constructor|]. inversion H as [|? ? H1 H2]; subst. constructor; [|auto]. intros C. apply H1, in_or_app. now left. Qed.
Lemma NoDup_app_r {A} (a b : list A) : NoDup (a ++ b) -> NoDup b.
Proof. induction a as [|x a IH]; cbn [app]; intros H; [exact H|]. inversion H; auto. Qed.

Definition all_opcodes : list opcode :=
  [(Toggl, false); (Toggl, true); (Trang, false); (Trang, true); (Clone, false); (Clone, true); (Kvsto, false); (Kvsto, true)].

(** An order lists every element once. *)
Record order_ok (o : order) : Prop := {
  oo_headers : forall l, Permutation (r_headers o l) l;
  oo_group : forall z, Permutation (r_group o z) z;
  oo_instr : Permutation (r_instr o) all_opcodes;
  oo_refs : forall z, Permutation (r_refs o z) z }.

Definition op_live (s : storage) (o : op) : Prop :=
  match o with
  | OToggl _ i => live s i
  | OTrang _ i st => live s i /\ live s st
  | OClone _ i _ => live s i
  | OKvsto _ _ _ => True
  end.
Definition op_bytes (o : op) : Prop :=
  match o with OClone _ _ v => is_bytes v | OKvsto _ k v => is_bytes k /\ is_bytes v | _ => True end.

Section Trans.
Context (c : cfg) (s : storage) (Hc : cfg_ok c) (Hs : sinv c s).

Lemma live_xrange i st : live s i -> live s st -> xrange_fits st (i + 1) = true.
Proof.
  pose proof Hs as [(S1 & S2 & S3) S4 _ _ _]. pose proof Hc as [C1 C2 C3]. assert (HO : 0 <= 65 < c_max_index c) by lia.
  assert (B : forall i, live s i -> 0 <= i < 65536).
  { intros j [H|H]; [rewrite S2 in H; lia|]. apply in_map_iff in H as (x & <- & Hin). apply In_nth_error in Hin as (n & Hj).
    pose proof (linv_range _ _ HO _ _ _ S4 Hj). lia. }
  intros A B'. apply B in A. apply B in B'. unfold xrange_fits, fits_long. change (2 ^ 63) with 9223372036854775808. rewrite !andb_true_iff, !Z.leb_le, !Z.ltb_lt. lia.
Qed.
Lemma live_fits i : live s i -> index_fits (c_width c) i.
Proof.
  intros H. pose proof Hs as [(S1 & S2 & S3) S4 _ _ _]. pose proof Hc as [C1 C2 C3]. assert (HO : 0 <= 65 < c_max_index c) by lia.
  assert (B : 0 <= i < c_max_index c).
  { destruct H as [H|H]; [rewrite S2 in H; lia|]. apply in_map_iff in H as (x & <- & Hin). apply In_nth_error in Hin as (j & Hj).
    pose proof (linv_range _ _ HO _ _ _ S4 Hj). lia. }
  split; [lia|]. destruct (c_width c); [change (2 ^ 8) with 256; lia|change (2 ^ 16) with 65536; lia|exact I].
Qed.
Lemma end_fits i : is_end s i -> index_fits (c_width c) i.
Proof.
  intros H. pose proof Hs as [(S1 & S2 & S3) S4 _ _ _]. pose proof Hc as [C1 C2 C3]. destruct S4 as [_ _ S4 _]. unfold is_end in H. rewrite S2 in H.
  split; [lia|]. destruct (c_width c); [change (2 ^ 8) with 256; lia|change (2 ^ 16) with 65536; lia|exact I].
Qed.

Lemma trans_index i : live s i -> exists j, hg_to_lru s i = Ok j /\ lru_to_hg s j = Ok i /\ index_fits (c_width c) j.
Proof.
  intros H. pose proof Hs as [(S1 & S2 & S3) S4 _ _ _]. assert (HO : 0 <= 65 < c_max_index c) by (destruct Hc; lia).
  destruct (hg_to_lru_ok 65 (c_max_index c) s i HO S4 (eq_sym S2) H) as (j & E1 & E2 & E3). exists j. split; [exact E1|]. split; [exact E3|now apply end_fits].
Qed.

Lemma trans_op o oc : op_live s o -> op_bytes o -> opcode_of o = oc ->
  exists o', map_index (hg_to_lru s) o = Ok o' /\ map_index (lru_to_hg s) o' = Ok o /\ valid_instr (c_width c) oc o'.
Proof.
  intros L B <-. destruct o as [e i|e i st|e i v|e k v]; cbn [op_live op_bytes map_index opcode_of] in *.
  - destruct (trans_index i L) as (j & E1 & E2 & E3). rewrite E1. cbn [bind]. eexists. split; [reflexivity|]. cbn [map_index]. rewrite E2. cbn. auto.
  - destruct L as [L1 L2]. destruct (trans_index i L1) as (j & E1 & E2 & E3). destruct (trans_index st L2) as (j' & F1 & F2 & F3).
    rewrite E1. cbn [bind]. rewrite F1. cbn [bind]. eexists. split; [reflexivity|]. cbn [map_index]. rewrite E2. cbn [bind]. rewrite F2. cbn. auto.
  - destruct (trans_index i L) as (j & E1 & E2 & E3). rewrite E1. cbn [bind]. eexists. split; [reflexivity|]. cbn [map_index]. rewrite E2. cbn. auto.
  - eexists. split; [reflexivity|]. cbn. auto.
Qed.

Lemma trans_ops oc ops : (forall o, In o ops -> op_live s o /\ op_bytes o /\ opcode_of o = oc) ->
  exists ops', hg_to_lru_ops c s ops = Ok ops' /\ lru_to_hg_ops c s ops' = Ok ops /\ forall o, In o ops' -> valid_instr (c_width c) oc o.
Proof.
  intros H. unfold hg_to_lru_ops, lru_to_hg_ops. destruct (c_from_end c).
  - induction ops as [|o ops IH]; cbn [mapm]; [exists []; repeat split; cbn; contradiction|].
    destruct (H o (or_introl eq_refl)) as (A & B & C). destruct (trans_op o oc A B C) as (o' & E1 & E2 & E3). rewrite E1. cbn [bind].
    destruct IH as (ops' & F1 & F2 & F3); [intros; apply H; now right|]. rewrite F1. cbn [bind]. eexists. split; [reflexivity|]. cbn [mapm]. rewrite E2. cbn [bind]. rewrite F2. cbn [bind].
    split; [reflexivity|]. intros x [<-|Hx]; auto.
  - exists ops. split; [reflexivity|]. split; [reflexivity|]. intros o Ho. destruct (H o Ho) as (A & B & <-).
    destruct o as [e i|e i st|e i v|e k v]; cbn [op_live op_bytes valid_instr opcode_of] in *; repeat split; try tauto; try apply live_fits; tauto.
Qed.

Lemma mapm_app {A B} (f : A -> res B) a b a' b' : mapm f a = Ok a' -> mapm f b = Ok b' -> mapm f (a ++ b) = Ok (a' ++ b').
Proof.
  revert a'. induction a as [|x a IH]; intros a' Ha Hb; cbn [app mapm] in *; [injection Ha as <-; exact Hb|].
  destruct (f x); [|discriminate]. cbn [bind] in *. destruct (mapm f a) as [r|]; [|discriminate]. cbn [bind] in *. injection Ha as <-.
  now rewrite (IH r eq_refl Hb).
Qed.
Lemma lru_to_hg_ops_app a b a' b' : lru_to_hg_ops c s a = Ok a' -> lru_to_hg_ops c s b = Ok b' -> lru_to_hg_ops c s (a ++ b) = Ok (a' ++ b').
Proof. unfold lru_to_hg_ops. destruct (c_from_end c); [apply mapm_app|congruence]. Qed.

Lemma trans_all (f : opcode -> list op) ocs : (forall oc o, In o (f oc) -> op_live s o /\ op_bytes o /\ opcode_of o = oc) ->
  exists is, mapm (fun oc => let* ops := hg_to_lru_ops c s (f oc) in Ok (oc, ops)) ocs = Ok is /\ map fst is = ocs /\
  lru_to_hg_ops c s (flat_map snd is) = Ok (flat_map f ocs) /\ valid (c_width c) is.
Proof.
  intros H. induction ocs as [|oc ocs (is & E1 & E2 & E3 & E4)]; cbn [mapm].
  { exists []. repeat split; [|intros ? ? []]. unfold lru_to_hg_ops. cbn. destruct (c_from_end c); reflexivity. }
  destruct (trans_ops oc (f oc) (H oc)) as (ops' & F1 & F2 & F3). rewrite F1. cbn [bind]. rewrite E1. cbn [bind]. eexists. split; [reflexivity|].
  cbn [map fst flat_map snd]. split; [now rewrite E2|]. split; [now apply lru_to_hg_ops_app|].
  intros oc' ops [E|Hin]; [injection E as <- <-; auto|]. now apply E4.
Qed.

(** ** All operations of a message *)

Lemma ops_of_code m done oc o : In o (ops_of m done oc) -> opcode_of o = oc.
Proof.
  destruct oc as [[] e]; cbn [ops_of]; [| | |destruct e; [contradiction|]]; intros H; apply in_map_iff in H as (x & <- & _); reflexivity.
Qed.

Lemma range_in l i st : In (i, st) (snd (figure_out_ranges l)) -> In i l /\ In st l.
Proof.
  intros H. destruct (figure_out_ok l) as [P F]. rewrite Forall_forall in F. specialize (F _ H). cbn [fst snd] in F.
  assert (G : forall x, st <= x <= i -> In x l).
  { intros x Hx. eapply Permutation_in; [exact P|]. unfold expand. apply in_or_app. right. apply in_flat_map. exists (i, st). split; [exact H|]. apply xrange_In. cbn. lia. }
  split; apply G; lia.
Qed.
Lemma single_in l i : In i (fst (figure_out_ranges l)) -> In i l.
Proof. intros H. destruct (figure_out_ok l) as [P F]. eapply Permutation_in; [exact P|]. unfold expand. apply in_or_app. now left. Qed.

Lemma toggles_app e a b : toggles e (a ++ b) = toggles e a ++ toggles e b.
Proof. apply flat_map_app. Qed.
Lemma toggles_single e l : toggles e (map (OToggl e) l) = l.
Proof. unfold toggles. induction l as [|i l IH]; cbn [map flat_map]; [reflexivity|]. rewrite Bool.eqb_reflx. cbn [app]. now f_equal. Qed.
Lemma toggles_range e l : toggles e (map (fun r => OTrang e (fst r) (snd r)) l) = flat_map (fun p => xrange (snd p) (fst p + 1)) l.
Proof. unfold toggles. induction l as [|i l IH]; cbn [map flat_map]; [reflexivity|]. rewrite Bool.eqb_reflx. now f_equal. Qed.
Lemma toggles_other e oc m done : fst oc <> Toggl -> fst oc <> Trang -> toggles e (ops_of m done oc) = [].
Proof.
  intros H1 H2. unfold toggles. assert (G : forall o, In o (ops_of m done oc) -> (fun o => match o with
    | OToggl e' i => if Bool.eqb e e' then [i] else []
    | OTrang e' i st => if Bool.eqb e e' then xrange st (i + 1) else []
    | _ => [] end) o = []).
  { intros o Ho. apply ops_of_code in Ho. destruct o; cbn in *; try reflexivity; subst oc; cbn in *; congruence. }
  induction (ops_of m done oc) as [|o l IH]; cbn [flat_map]; [reflexivity|]. rewrite IH by (intros; apply G; now right). now rewrite (G o (or_introl eq_refl)).
Qed.
Lemma toggles_wrong e e' oc m done : snd oc = e' -> e' <> e -> toggles e (ops_of m done oc) = [].
Proof.
  intros H1 H2. unfold toggles. assert (G : forall o, In o (ops_of m done oc) -> (fun o => match o with
    | OToggl e' i => if Bool.eqb e e' then [i] else []
    | OTrang e' i st => if Bool.eqb e e' then xrange st (i + 1) else []
    | _ => [] end) o = []).
  { intros o Ho. apply ops_of_code in Ho. subst e'. destruct o as [e0 i|e0 i st|e0 i v|e0 k v]; try reflexivity; subst oc; cbn in H2; destruct e, e0; cbn; congruence. }
  induction (ops_of m done oc) as [|o l IH]; cbn [flat_map]; [reflexivity|]. rewrite IH by (intros; apply G; now right). now rewrite (G o (or_introl eq_refl)).
Qed.

Lemma flat_map_perm {A B} (f : A -> list B) a b : Permutation a b -> Permutation (flat_map f a) (flat_map f b).
Proof. apply Permutation_flat_map. Qed.

Lemma all_toggles e m done ocs : Permutation ocs all_opcodes ->
  Permutation (toggles e (flat_map (ops_of m done) ocs)) (if e then m_et m else zunion (m_st m) done).
Proof.
  intros P. transitivity (toggles e (flat_map (ops_of m done) all_opcodes)); [apply flat_map_perm, flat_map_perm, P|].
  unfold all_opcodes. cbn [flat_map]. rewrite !toggles_app.
  rewrite (toggles_other e (Clone, false)), (toggles_other e (Clone, true)), (toggles_other e (Kvsto, false)), (toggles_other e (Kvsto, true)) by discriminate.
  cbn [toggles flat_map]. rewrite !app_nil_r. destruct e.
  - rewrite (toggles_wrong true false (Toggl, false)), (toggles_wrong true false (Trang, false)) by (reflexivity || discriminate). cbn [app].
    unfold ops_of. rewrite toggles_single, toggles_range. apply (C26_ranges_exact (m_et m)).
  - rewrite (toggles_wrong false true (Toggl, true)), (toggles_wrong false true (Trang, true)) by (reflexivity || discriminate). cbn [app]. rewrite app_nil_r.
    unfold ops_of. rewrite toggles_single, toggles_range. apply (C26_ranges_exact (zunion (m_st m) done)).
Qed.

Lemma all_lits m done ocs : Permutation ocs all_opcodes ->
  Permutation (lits s (flat_map (ops_of m done) ocs)) (map (ck s) (m_sclone m ++ m_eclone m) ++ m_skvsto m).
Proof.
  intros P. transitivity (lits s (flat_map (ops_of m done) all_opcodes)); [apply flat_map_perm, flat_map_perm, P|].
  unfold all_opcodes, lits. cbn [flat_map]. rewrite !flat_map_app.
  assert (T : forall e (l : list Z), flat_map (fun o => match o with OClone _ i v => [(fst (kvof s i), v)] | OKvsto _ k v => [(k, v)] | _ => [] end) (map (OToggl e) l) = []).
  { intros e l. induction l; cbn; auto. }
  assert (R : forall e (l : list (Z * Z)), flat_map (fun o => match o with OClone _ i v => [(fst (kvof s i), v)] | OKvsto _ k v => [(k, v)] | _ => [] end) (map (fun r => OTrang e (fst r) (snd r)) l) = []).
  { intros e l. induction l; cbn; auto. }
  assert (C : forall e (l : list (Z * str)), flat_map (fun o => match o with OClone _ i v => [(fst (kvof s i), v)] | OKvsto _ k v => [(k, v)] | _ => [] end) (map (fun r => OClone e (fst r) (snd r)) l) = map (ck s) l).
  { intros e l. induction l as [|x l IH]; cbn [map flat_map app]; [reflexivity|]. now rewrite IH. }
  assert (K : forall e (l : list (str * str)), flat_map (fun o => match o with OClone _ i v => [(fst (kvof s i), v)] | OKvsto _ k v => [(k, v)] | _ => [] end) (map (fun r => OKvsto e (fst r) (snd r)) l) = l).
  { intros e l. induction l as [|[x y] l IH]; cbn [map flat_map app fst snd]; [reflexivity|]. now rewrite IH. }
  cbn [ops_of flat_map]. rewrite !T, !R, !C, !K. cbn [app]. rewrite !app_nil_r, map_app, <- app_assoc. reflexivity.
Qed.

End Trans.

(** ** One message *)

Definition headers_bytes (d : hdict) : Prop := forall k v, In (k, v) d -> is_bytes k /\ is_bytes v.

Lemma all_pairs_in d k p : In (k, p) (all_pairs d) <-> exists v, In (k, v) d /\ In p (pieces k v).
Proof.
  unfold all_pairs. rewrite in_flat_map. split.
  - intros ([k' v] & Hin & H). cbn [fst snd] in H. apply in_map_iff in H as (q & E & Hq). injection E as -> ->. eauto.
  - intros (v & Hin & Hp). exists (k, v). split; [exact Hin|]. cbn [fst snd]. apply in_map_iff. eauto.
Qed.

Lemma make_ok o k d gid : kinv k -> order_ok o -> headers_bytes d ->
  exists k' is, make_operations o k d gid = Ok (k', is) /\ kinv k' /\ k_cfg k' = k_cfg k /\ valid (c_width (k_cfg k)) is /\ map fst is = r_instr o /\
  (exists ops', lru_to_hg_ops (k_cfg k) (k_store k) (flat_map snd is) = Ok ops' /\ Forall (op_live (k_store k)) ops') /\
  forall ref, (forall z, Permutation (ref z) z) -> exists L, Permutation L (headers_set d) /\
    execute_ops ref k (flat_map snd is) gid = Ok (k', cookie_nul (fold_left app2 L [])).
Proof.
  intros K Ho Hb. pose proof K as [Hc Hs Hg]. set (c := k_cfg k) in *. set (s := k_store k) in *. pose proof Ho as [O1 O2 O3 O4].
  unfold make_operations. cbv zeta. fold c. fold s. fold (cur_of k gid). destruct (cur_of_ok k gid K) as [Cs Cl]. fold s in Cl. set (cur := cur_of k gid) in *.
  destruct (headers_set_ok d) as [Hn Hin]. pose proof (zsorted_NoDup _ Cs) as Cn.
  destruct (keep_loop_ok c s Hc Hs (r_group o cur) (headers_set d) []) as (hs & done & kept & E & Z1 & Z2 & Z3 & Z4 & Z5).
  { eapply Permutation_NoDup; [symmetry; apply O2|exact Cn]. }
  { eapply Permutation_Forall; [symmetry; apply O2|exact Cl]. }
  { exact Hn. }
  { constructor. }
  rewrite E. cbn [bind].
  assert (Nall : NoDup (map (kvof s) kept ++ hs)) by (eapply Permutation_NoDup; [exact Z4|exact Hn]).
  assert (Nhs : NoDup (r_headers o hs)).
  { eapply Permutation_NoDup; [symmetry; apply O1|]. apply NoDup_app_r in Nall. exact Nall. }
  pose proof (make_fold_ok c s Hc Hs (r_headers o hs) Nhs) as M. set (m := fold_left _ _ _) in *. pose proof M as [M1 M2 M3 M4].
  rewrite (O1 hs) in M1. rewrite Forall_app in M3, M4. destruct M3 as [M3 M3']. destruct M4 as [M4 M4'].
  assert (Hall : Permutation (headers_set d) (map (kvof s) (kept ++ m_st m ++ m_et m) ++ map (ck s) (m_sclone m ++ m_eclone m) ++ m_skvsto m)).
  { rewrite Z4, M1, !map_app, <- !app_assoc. reflexivity. }
  assert (Nkv : NoDup (kept ++ m_st m ++ m_et m)).
  { apply (NoDup_map_inv (kvof s)). eapply NoDup_app_l. eapply Permutation_NoDup; [exact Hall|exact Hn]. }
  assert (Hdone : forall i, In i done <-> In i cur /\ ~ In i kept).
  { intros i. rewrite Z3. cbn. split; [intros [[]|[A B]]|intros [A B]; right]; (split; [|exact B]); [eapply Permutation_in; [apply O2|exact A]|eapply Permutation_in; [symmetry; apply O2|exact A]]. }
  assert (Hkept : forall i, In i kept -> In i cur) by (intros i Hi; eapply Permutation_in; [apply O2|]; now apply Z2).
  assert (Hst : forall i, In i (m_st m ++ m_et m) -> ~ In i cur).
  { intros i Hi C. apply (Z5 i); [eapply Permutation_in; [symmetry; apply O2|exact C]|]. eapply Permutation_in; [symmetry; exact M1|]. apply in_or_app. left. now apply in_map. }
  assert (Hbytes : forall kk p, In (kk, p) (headers_set d) -> is_bytes kk /\ is_bytes p).
  { intros kk p H. apply Hin, all_pairs_in in H as (v & Hv & Hp). destruct (Hb kk v Hv) as [B1 B2]. split; [exact B1|]. now apply (pieces_in kk v p Hp). }
  assert (Hlive : forall oc x, In x (ops_of m done oc) -> op_live s x /\ op_bytes x /\ opcode_of x = oc).
  { intros oc x Hx. split; [|split; [|now apply ops_of_code in Hx]].
    - assert (Hu : forall (e : bool) i, In i (if e then m_et m else zunion (m_st m) done) -> live s i).
      { intros [] i Hi; [rewrite Forall_forall in M3'; now apply M3'|]. apply zunion_In in Hi as [Hi|Hi]; [rewrite Forall_forall in M3; now apply M3|].
        apply Hdone in Hi as [Hi _]. rewrite Forall_forall in Cl. now apply Cl. }
      destruct oc as [[] e]; cbn [ops_of] in Hx; [| | |destruct e; [contradiction|]]; apply in_map_iff in Hx as (y & <- & Hy); cbn [op_live].
      + apply (Hu e). now apply single_in.
      + destruct y as [i st]. apply range_in in Hy as [A B]. cbn [fst snd]. split; now apply (Hu e).
      + rewrite Forall_forall in M4, M4'. destruct e; [now apply (M4' y)|now apply (M4 y)].
      + exact I.
    - assert (Hsub : forall p, In p (map (ck s) (m_sclone m ++ m_eclone m) ++ m_skvsto m) -> is_bytes (fst p) /\ is_bytes (snd p)).
      { intros [a b] Hp. apply Hbytes. eapply Permutation_in; [symmetry; exact Hall|]. apply in_or_app. now right. }
      destruct oc as [[] e]; cbn [ops_of] in Hx; [| | |destruct e; [contradiction|]]; apply in_map_iff in Hx as (y & <- & Hy); cbn [op_bytes]; auto.
      + apply (Hsub (ck s y)). apply in_or_app. left. apply in_map. apply in_or_app. destruct e; auto.
      + apply (Hsub y). apply in_or_app. now right. }
  destruct (trans_all c s Hc Hs (ops_of m done) (r_instr o) Hlive) as (is & E1 & E2 & E3 & E4). rewrite E1. cbn [bind].
  set (ops' := flat_map (ops_of m done) (r_instr o)) in *.
  assert (T0 : Permutation (toggles false ops') (zunion (m_st m) done)) by exact (all_toggles false m done (r_instr o) O3).
  assert (T1 : Permutation (toggles true ops') (m_et m)) by exact (all_toggles true m done (r_instr o) O3).
  assert (NT0 : NoDup (toggles false ops')) by (eapply Permutation_NoDup; [symmetry; exact T0|apply zsorted_NoDup, zunion_sorted, M2]).
  assert (NT1 : NoDup (toggles true ops')). { eapply Permutation_NoDup; [symmetry; exact T1|]. apply NoDup_app_r, NoDup_app_r in Nkv. exact Nkv. }
  assert (S0 : forall i, In i (zsymdiff [] (toggles false ops')) <-> In i (m_st m) \/ In i done).
  { intros i. rewrite zsymdiff_In by exact NT0. rewrite <- zunion_In. split; [intros [[[] _]|[_ A]]; eapply Permutation_in; eassumption|intros A; right; split; [tauto|]; eapply Permutation_in; [symmetry; eassumption|exact A]]. }
  assert (S1 : forall i, In i (zsymdiff [] (toggles true ops')) <-> In i (m_et m)).
  { intros i. rewrite zsymdiff_In by exact NT1. split; [intros [[[] _]|[_ A]]; eapply Permutation_in; eassumption|intros A; right; split; [tauto|]; eapply Permutation_in; [symmetry; eassumption|exact A]]. }
  assert (Nil : zsorted []) by constructor.
  set (st := zsymdiff [] (toggles false ops')) in *. set (et := zsymdiff [] (toggles true ops')) in *.
  assert (Hst_s : zsorted st) by (now apply zsymdiff_sorted). assert (Het_s : zsorted et) by (now apply zsymdiff_sorted).
  set (cur' := zsymdiff cur st) in *. assert (Hcur'_s : zsorted cur') by (now apply zsymdiff_sorted).
  assert (Hcur' : forall i, In i cur' <-> In i kept \/ In i (m_st m)).
  { intros i. unfold cur'. rewrite zsymdiff_In by (now apply zsorted_NoDup). rewrite S0, Hdone. split.
    - intros [[A B]|[A [B|[B _]]]]; [|now right|contradiction]. left. destruct (in_dec Z.eq_dec i kept); [assumption|]. exfalso. apply B. right. auto.
    - intros [A|A].
      + left. split; [now apply Hkept|]. intros [C|[_ C]]; [|contradiction]. apply (Hst i); [apply in_or_app; now left|now apply Hkept].
      + right. split; [apply Hst; apply in_or_app; now left|now left]. }
  set (refs := zsymdiff et cur').
  assert (Hrefs : Permutation refs (kept ++ m_st m ++ m_et m)).
  { apply NoDup_Permutation; [apply zsorted_NoDup; now apply zsymdiff_sorted|exact Nkv|]. intros i. unfold refs.
    rewrite zsymdiff_In by (now apply zsorted_NoDup). rewrite S1, Hcur', !in_app_iff. split; [tauto|].
    intros [A|[A|A]].
    - right. split; [|now left]. intros C. apply (Hst i); [apply in_or_app; now right|now apply Hkept].
    - right. split; [|now right]. intros C. apply NoDup_app_r in Nkv. clear -Nkv A C. induction (m_st m) as [|x l IH]; [contradiction|]. cbn in Nkv. inversion Nkv as [|? ? N1 N2]; subst.
      destruct A as [->|A]; [apply N1; apply in_or_app; now right|now apply IH].
    - left. split; [exact A|]. intros [C|C].
      + apply (Hst i); [apply in_or_app; now right|now apply Hkept].
      + apply NoDup_app_r in Nkv. clear -Nkv A C. induction (m_st m) as [|x l IH]; [contradiction|]. cbn in Nkv. inversion Nkv as [|? ? N1 N2]; subst.
        destruct C as [->|C]; [apply N1; apply in_or_app; now right|now apply IH]. }
  assert (Lrefs : Forall (live s) refs).
  { eapply Permutation_Forall; [symmetry; exact Hrefs|]. rewrite !Forall_app. repeat split; auto. rewrite Forall_forall in Cl |- *. auto. }
  assert (Lcur' : Forall (live s) cur').
  { apply Forall_forall. intros i Hi. apply Hcur' in Hi as [Hi|Hi]; [rewrite Forall_forall in Cl; auto|rewrite Forall_forall in M3; auto]. }
  assert (Hcl : clones_live s ops').
  { split; [intros e i v H|intros e i st' H]; unfold ops' in H; apply in_flat_map in H as (oc & _ & H); apply (Hlive oc) in H as [H _]; [exact H|].
    destruct H as [H1 H2]. exact (live_xrange c s Hc Hs _ _ H1 H2). }
  assert (X : forall ref, (forall z, Permutation (ref z) z) -> exists k', execute_ops ref k (flat_map snd is) gid =
      Ok (k', cookie_nul (fold_left app2 (lits s ops' ++ map (kvof s) (ref refs)) [])) /\ kinv k' /\ k_cfg k' = k_cfg k).
  { intros ref Hr. apply (execute_ok ref k _ ops' gid K E3 Hcl); [exact Lcur'|]. eapply Permutation_Forall; [symmetry; apply Hr|exact Lrefs]. }
  destruct (X (r_refs o) O4) as (k' & Ex & K' & C'). rewrite execute_find.
  assert (Ek : mk_code c s (k_groups k) = k) by (destruct k; reflexivity). rewrite Ek, Ex. cbn [bind].
  exists k', is. split; [reflexivity|]. split; [exact K'|]. split; [exact C'|]. split; [exact E4|]. split; [exact E2|].
  split; [exists ops'; split; [exact E3|]; apply Forall_forall; intros x Hx; apply in_flat_map in Hx as (oc & _ & Hx); apply (Hlive oc), Hx|].
  intros ref Hr. destruct (X ref Hr) as (k2 & Ex2 & _). pose proof (execute_order _ _ _ _ _ _ _ _ _ Ex2 Ex) as ->.
  eexists. split; [|exact Ex2]. rewrite Hall. unfold ops'. rewrite (all_lits s m done (r_instr o) O3), Permutation_app_comm. apply Permutation_app; [|reflexivity].
  rewrite (Hr refs). now apply Permutation_map.
Qed.
