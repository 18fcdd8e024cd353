(** * Any message at all: what a decompressor's state satisfies afterwards. *)
From Coq Require Import String List NArith ZArith Bool Arith Lia Permutation Sorted.
From Verif Require Import PyBase PyStr Lib_Model D2Huff_Model D2Store_Model D2Store_Proofs Prop_D2Store D2Wire_Model D2Code_Model Prop_D2Ranges D2Code_Sets
  D1Code_Inv D2Code_Store D2Code_Exec D2Code_Round D2Code_Bytes D2State_Model.
Import ListNotations.
Open Scope Z_scope.
Open Scope py_scope.

(** ** The two models agree *)

Lemma exec_loop_agree s : forall ops x, exec_loop s x ops = match exec_loop_st s x ops with (x', None) => Ok x' | (_, Some e) => Err e end.
Proof.
  induction ops as [|o r IH]; intros x; cbn [exec_loop exec_loop_st]; [reflexivity|]. destruct (exec_op s x o) as [x1|e]; cbn [bind]; [apply IH|reflexivity].
Qed.

Lemma execute_agree ref k ops gid : execute_ops ref k ops gid = match execute_ops_st ref k ops gid with (k', Ok hd) => Ok (k', hd) | (_, Err e) => Err e end.
Proof.
  unfold execute_ops, execute_ops_st. cbv zeta. destruct (lru_to_hg_ops _ _ _) as [ops'|]; cbn [bind]; [|reflexivity]. rewrite exec_loop_agree.
  destruct (exec_loop_st _ _ ops') as [x [e|]]; cbn [bind]; [reflexivity|].
  destruct (append_refs _ _ _) as [hd|]; cbn [bind]; [|reflexivity]. destruct (if c_hg_adjust (k_cfg k) then _ else _) as [later|]; cbn [bind]; [|reflexivity].
  destruct (store_loop _ _ _ _) as [y1|]; cbn [bind]; [|reflexivity]. destruct (adjust_loop _ _ _ _) as [y2|]; cbn [bind]; reflexivity.
Qed.

Lemma receive_one_agree h ref k blob : real_ops_execute h ref k blob = match receive_one h ref k blob with (k', Ok hd) => Ok (k', hd) | (_, Err e) => Err e end.
Proof.
  unfold real_ops_execute, receive_one. destruct (from_wire _ _ _) as [[gid ops]|]; cbn [bind]; [|reflexivity]. cbv zeta. apply execute_agree.
Qed.

(** ** Entries that are in no table *)

Definition dead (c : cfg) (p : Z) : Prop := p < 0 \/ c_max_index c <= p.

Lemma lookup_raises s q : (exists e, lookup_idx s q = Ok e) \/ lookup_idx s q = Err IndexError \/ lookup_idx s q = Err StandardError.
Proof.
  assert (D : forall A (r : list A) i, (exists e, dq_get r i = Ok e) \/ dq_get r i = Err IndexError).
  { intros A r i. unfold dq_get. cbv zeta. destruct (_ && _); [|now right]. destruct (nth_error _ _); eauto. }
  assert (L : forall l, (exists e, lookup l q = Ok e) \/ lookup l q = Err IndexError \/ lookup l q = Err StandardError).
  { intros l. unfold lookup. assert (I : (exists i, idx_from_left l q = Ok i) \/ idx_from_left l q = Err IndexError).
    { unfold idx_from_left. destruct (D _ (l_ring l) 0) as [([a b] & ->)| ->]; cbn [bind]; [|now right].
      destruct (q <? l_offset l); [now right|]. destruct (q <? b); [|eauto]. destruct (l_maxs l) as [m|]; [|now right]. destruct (m =? 0); eauto. }
    destruct I as [(i & ->)| ->]; cbn [bind]; [|auto]. destruct (D _ (l_ring l) i) as [(e & ->)| ->]; cbn [bind]; [|auto].
    destruct (snd e =? q); eauto. }
  unfold lookup_idx. destruct (q <? ring_len (s_static s)); apply L.
Qed.

Lemma live_range c s q : cfg_ok c -> sinv c s -> live s q -> 0 <= q < c_max_index c.
Proof.
  intros [C1 C2 C3] [(S1 & S2 & S3) S4 _ _ _] [H|H]; [rewrite S2 in H; lia|]. apply in_map_iff in H as (x & <- & Hin). apply In_nth_error in Hin as (n & Hj).
  pose proof (linv_range 65 (c_max_index c) ltac:(lia) _ _ _ S4 Hj). lia.
Qed.

(** A dead index is never found. *)
Lemma lookup_dead c s p : cfg_ok c -> sinv c s -> dead c p -> lookup_idx s p = Err IndexError \/ lookup_idx s p = Err StandardError.
Proof.
  intros Hc Hs Hp. destruct (lookup_raises s p) as [(e & E)|H]; [|exact H]. exfalso.
  assert (Hl : live s p \/ p < 0).
  { pose proof Hs as [(S1 & S2 & S3) _ _ _ _]. unfold lookup_idx in E. assert (G : forall l, lookup l p = Ok e -> In p (map snd (l_ring l))).
    { intros l. unfold lookup. destruct (idx_from_left l p) as [i|]; [|discriminate]. cbn [bind]. destruct (dq_get (l_ring l) i) as [e'|] eqn:Ed; [|discriminate].
      cbn [bind]. destruct (Z.eqb_spec (snd e') p) as [Ep|]; [|discriminate]. intros _. rewrite <- Ep. apply in_map. unfold dq_get in Ed. cbv zeta in Ed.
      destruct (_ && _); [|discriminate]. destruct (nth_error _ _) eqn:En; [|discriminate]. injection Ed as <-. now apply nth_error_In in En. }
    destruct (Z.ltb_spec p (ring_len (s_static s))) as [L|L].
    - destruct (Z.lt_ge_cases p 0); [now right|]. left. left. lia.
    - left. right. now apply G. }
  assert (Hn : p < 0 -> False).
  { intros Hneg. pose proof Hs as [(S1 & S2 & S3) _ _ _ _]. unfold lookup_idx in E. rewrite S2 in E. destruct (Z.ltb_spec p 65); [|lia].
    unfold lookup, idx_from_left in E. destruct (dq_get (l_ring (s_static s)) 0) as [[a b]|]; [|discriminate]. cbn [bind] in E. rewrite S1 in E. destruct (Z.ltb_spec p 0); [|lia]. discriminate. }
  destruct Hl as [Hl|Hl]; [|auto]. apply (live_range c s p Hc Hs) in Hl. destruct Hp; lia.
Qed.

(** ** Storing *)

Definition has (g : groups) (id : N) (p : Z) : Prop := exists s, gget g id = Some s /\ In p s.
Definition any (_ : Z) : Prop := True.

Lemma has_remove g id p e : has g id p -> snd e <> p -> has (remove_from_groups g e) id p.
Proof.
  intros (s & E & Hin) Hne. exists (zremove (snd e) s). split; [|apply zremove_In; split; [exact Hin|congruence]].
  induction g as [|[i t] g IH]; [discriminate|]. unfold remove_from_groups in *. cbn [map filter fst snd gget] in *. destruct (N.eqb_spec i id) as [->|Hi].
  - injection E as ->. destruct (is_nil (zremove (snd e) s)) eqn:En.
    + exfalso. assert (In p (zremove (snd e) s)) by (apply zremove_In; split; [exact Hin|congruence]). destruct (zremove _ _); [contradiction|discriminate].
    + cbn [negb gget]. now rewrite N.eqb_refl.
  - destruct (negb _); cbn [gget]; [destruct (N.eqb_spec i id); [contradiction|]|]; now apply IH.
Qed.

Lemma has_evict gid id p : forall popped y, (forall e, In e popped -> snd e <> p) -> has (y_groups y) id p -> has (y_groups (fold_left (y_evict gid) popped y)) id p.
Proof.
  induction popped as [|e r IH]; intros y Hn H; cbn [fold_left]; [exact H|]. apply IH; [intros; apply Hn; now right|]. cbn [y_groups y_evict].
  apply has_remove; [exact H|]. apply Hn. now left.
Qed.

Lemma has_set gid id p y s : id <> gid -> has (y_groups y) id p -> has (y_groups (y_set gid y s)) id p.
Proof.
  intros Hn (t & E & Hin). exists t. split; [|exact Hin]. unfold y_set. destruct (y_orphan y); cbn [y_groups]; [exact E|]. rewrite gget_gset_ne by congruence. exact E.
Qed.

Definition ystep (c : cfg) (gid : N) (y y' : ystate) : Prop :=
  sinv c (y_store y') /\ yinv any y' /\ forall id p, id <> gid -> dead c p -> has (y_groups y) id p -> has (y_groups y') id p.

Lemma ystep_trans c gid a b d : ystep c gid a b -> ystep c gid b d -> ystep c gid a d.
Proof. intros (A1 & A2 & A3) (B1 & B2 & B3). split; [exact B1|]. split; [exact B2|]. auto. Qed.

Lemma any_all s : Forall any s.
Proof. apply Forall_forall. intros; exact I. Qed.

Lemma yset_step c gid y s : sinv c (y_store y) -> yinv any y -> zsorted s -> ystep c gid y (y_set gid y s).
Proof.
  intros Hs Hy Hz. destruct (yset_inv any gid y s Hy Hz (fun _ => any_all s)) as [A B]. split; [rewrite B; exact Hs|]. split; [exact A|].
  intros id p Hn _ H. now apply has_set.
Qed.

Lemma store_kv_any c gid y k : cfg_ok c -> sinv c (y_store y) -> yinv any y -> exists y' n, store_kv c gid y k = Ok (y', n) /\ ystep c gid y y'.
Proof.
  intros Hc Hs Hy. unfold store_kv. destruct (kv_new _ _ _) as [h e] eqn:Ek. set (s0 := mk_storage h (s_static (y_store y)) (s_lru (y_store y))).
  pose proof (sinv_heap c _ h Hs) as Hs0. fold s0 in Hs0.
  destruct (insert_spec c s0 e Hc Hs0) as (s' & n & p & kept & E & Hs' & Est & Er & Er'). rewrite E. cbn [bind].
  eexists. exists n. split; [reflexivity|].
  assert (Hy0 : yinv any (mk_y s' (y_groups y) (y_orphan y))) by (destruct Hy; split; assumption).
  destruct (evict_fold gid p _ _ Hy0) as [Hy' Hst]. cbv zeta in Hst. split; [rewrite Hst; exact Hs'|]. split.
  - destruct Hy' as [A B]. split; [|exact B]. eapply gall_impl; [|exact A]. intros; exact I.
  - intros id q _ Hq H. apply has_evict; [|exact H]. intros e' He Eq. subst q.
    assert (Hl : live s0 (snd e')) by (right; rewrite Er, map_app; apply in_or_app; left; now apply in_map).
    apply (live_range c s0 _ Hc Hs0) in Hl. destruct Hq; lia.
Qed.

Lemma store_loop_any c gid : forall later y, cfg_ok c -> sinv c (y_store y) -> yinv any y -> exists y', store_loop c gid y later = Ok y' /\ ystep c gid y y'.
Proof.
  induction later as [|k r IH]; intros y Hc Hs Hy; cbn [store_loop]; [exists y; split; [reflexivity|]; split; auto|].
  destruct (store_kv_any c gid y k Hc Hs Hy) as (y1 & n & E & S1). rewrite E. cbn [bind]. cbv zeta. pose proof S1 as (A1 & A2 & _).
  set (y2 := match n with Some i => if c_implicit c then y_set gid y1 (zadd i (y_cur gid y1)) else y1 | None => y1 end).
  assert (S2 : ystep c gid y1 y2).
  { assert (Z : ystep c gid y1 y1) by (split; auto). unfold y2. destruct n as [i|]; [|exact Z]. destruct (c_implicit c); [|exact Z].
    apply yset_step; auto. apply zadd_sorted. eapply ycur_sorted; eauto. }
  pose proof S2 as (B1 & B2 & _). destruct (IH y2 Hc B1 B2) as (y' & E' & S'). exists y'. split; [exact E'|]. eapply ystep_trans; [exact S1|]. eapply ystep_trans; eauto.
Qed.

Lemma adjust_loop_any c gid : forall later y, cfg_ok c -> sinv c (y_store y) -> yinv any y -> exists y', adjust_loop c gid y later = Ok y' /\ ystep c gid y y'.
Proof.
  induction later as [|[k old] r IH]; intros y Hc Hs Hy; cbn [adjust_loop]; [exists y; split; [reflexivity|]; split; auto|]. cbv zeta.
  set (y0 := if zmem old (y_cur gid y) then _ else y).
  assert (S0 : ystep c gid y y0).
  { unfold y0. destruct (zmem _ _); [|split; auto]. apply yset_step; auto. apply zremove_sorted. eapply ycur_sorted; eauto. }
  pose proof S0 as (Z1 & Z2 & _).
  destruct (store_kv_any c gid y0 k Hc Z1 Z2) as (y1 & n & E & S1). rewrite E. cbn [bind]. pose proof S1 as (A1 & A2 & _).
  set (y2 := match n with Some i => y_set gid y1 (zadd i (y_cur gid y1)) | None => y1 end).
  assert (S2 : ystep c gid y1 y2).
  { assert (Z : ystep c gid y1 y1) by (split; auto). unfold y2. destruct n as [i|]; [|exact Z].
    apply yset_step; auto. apply zadd_sorted. eapply ycur_sorted; eauto. }
  pose proof S2 as (B1 & B2 & _). destruct (IH y2 Hc B1 B2) as (y' & E' & S'). exists y'. split; [exact E'|]. eapply ystep_trans; [exact S0|]. eapply ystep_trans; [exact S1|]. eapply ystep_trans; eauto.
Qed.

(** ** One message *)

Record winv (k : code) : Prop := {
  wi_cfg : cfg_ok (k_cfg k);
  wi_table : exists G, tinv (k_cfg k) G (k_store k);
  wi_groups : gall any (k_groups k) }.

Lemma winv_new o k : code_new o = Ok k -> winv k /\ k_cfg k = config o /\ k_groups k = [].
Proof.
  intros E. destruct (new_bytes o k E) as [Ec T]. destruct (code_new_ok o) as (k' & E' & _ & _ & G & _). assert (k' = k) by congruence. subst k'.
  split; [|auto]. split; [rewrite Ec; apply config_ok|exact T|rewrite G; constructor].
Qed.

Definition raised_by_peer (e : exn) : Prop := e = IndexError \/ e = StandardError \/ e = OverflowError.

Lemma lru_to_hg_raises s i e : lru_to_hg s i = Err e -> e = IndexError.
Proof.
  unfold lru_to_hg. destruct (i <? _); [|discriminate]. unfold dq_get. cbv zeta. destruct (_ && _); cbn [bind]; [|congruence]. destruct (nth_error _ _); cbn [bind]; congruence.
Qed.
Lemma mapm_raises {A B} (f : A -> res B) (P : exn -> Prop) l e : (forall x e, f x = Err e -> P e) -> mapm f l = Err e -> P e.
Proof.
  intros H. induction l as [|x l IH]; cbn [mapm]; [discriminate|]. destruct (f x) as [y|e'] eqn:E; cbn [bind]; [|intros Z; injection Z as ->; now apply (H x)].
  destruct (mapm f l) as [r|e'] eqn:Er; cbn [bind]; [discriminate|]. intros Z. injection Z as ->. now apply IH.
Qed.
Lemma lru_to_hg_ops_raises c s ops e : lru_to_hg_ops c s ops = Err e -> e = IndexError.
Proof.
  unfold lru_to_hg_ops. destruct (c_from_end c); [|discriminate]. apply (mapm_raises _ (fun e => e = IndexError)). intros x e' H.
  destruct x; cbn [map_index] in H; [| | |discriminate];
    repeat match type of H with context[lru_to_hg s ?i] => let E := fresh in destruct (lru_to_hg s i) eqn:E; cbn [bind] in H; [|injection H as <-; now apply lru_to_hg_raises in E] end; discriminate.
Qed.
Lemma lookup_e s q e : lookup_idx s q = Err e -> raised_by_peer e.
Proof. unfold raised_by_peer. intros H. destruct (lookup_raises s q) as [(x & E)|[E|E]]; [congruence|left; congruence|right; left; congruence]. Qed.
Lemma exec_op_raises s x o e : exec_op s x o = Err e -> raised_by_peer e.
Proof.
  destruct o as [ep i|ep i st|ep i v|ep k v]; cbn [exec_op]; [discriminate| | |destruct ep; [discriminate|destruct (kv_new _ _ _); discriminate]].
  - destruct (xrange_fits _ _); [discriminate|]. intros H. injection H as <-. right. now right.
  - destruct (lookup_idx s i) as [[k q]|] eqn:E; cbn [bind]; [destruct ep; [discriminate|destruct (kv_new _ _ _); discriminate]|]. intros H. injection H as ->. now apply lookup_e in E.
Qed.
Lemma append_refs_raises s : forall refs hd e, append_refs s hd refs = Err e -> raised_by_peer e.
Proof.
  induction refs as [|i r IH]; intros hd e; cbn [append_refs]; [discriminate|]. destruct (lookup_idx s i) as [[k q]|] eqn:E; cbn [bind]; [apply IH|].
  intros H. injection H as ->. now apply lookup_e in E.
Qed.

(** The loop stops after a beginning of the operations. *)
Lemma exec_loop_st_prefix s : forall ops x x' r, exec_loop_st s x ops = (x', r) -> (exists ops1 ops2, ops = ops1 ++ ops2 /\ exec_loop s x ops1 = Ok x') /\
  match r with Some e => raised_by_peer e | None => True end.
Proof.
  induction ops as [|o ops IH]; intros x x' r E; cbn [exec_loop_st] in E; [injection E as <- <-; split; [exists [], []; auto|exact I]|].
  destruct (exec_op s x o) as [x1|e] eqn:E1.
  - destruct (IH _ _ _ E) as [(a & b & -> & Ea) Hr]. split; [|exact Hr]. exists (o :: a), b. split; [reflexivity|]. cbn [exec_loop]. now rewrite E1.
  - injection E as <- <-. split; [exists [], (o :: ops); auto|now apply exec_op_raises in E1].
Qed.

Lemma gget_find_ne g id gid : id <> gid -> gget (find_or_make g gid) id = gget g id.
Proof. intros H. unfold find_or_make. destruct (gget g gid); [reflexivity|]. rewrite gget_gset_ne by congruence. reflexivity. Qed.

Lemma execute_any ref k ops gid k' r : winv k -> execute_ops_st ref k ops gid = (k', r) ->
  winv k' /\ k_cfg k' = k_cfg k /\
  (forall id p, id <> gid -> dead (k_cfg k) p -> has (k_groups k) id p -> has (k_groups k') id p) /\
  match r with
  | Ok _ => True
  | Err e => raised_by_peer e /\ s_lru (k_store k') = s_lru (k_store k) /\ s_static (k_store k') = s_static (k_store k) /\
      forall id, id <> gid -> gget (k_groups k') id = gget (k_groups k) id
  end.
Proof.
  intros [W1 (G & T) W3] E. unfold execute_ops_st in E. cbv zeta in E. set (c := k_cfg k) in *. set (s := k_store k) in *.
  pose proof (gall_find any _ gid W3) as GF. set (g := find_or_make (k_groups k) gid) in *.
  assert (Hg : forall id, id <> gid -> gget g id = gget (k_groups k) id) by (intros id Hn; now apply gget_find_ne).
  assert (Hh : forall id p, id <> gid -> has (k_groups k) id p -> has g id p) by (intros id p Hn (z & Z1 & Z2); exists z; rewrite Hg; auto).
  destruct (lru_to_hg_ops c s ops) as [ops'|e] eqn:Eo.
  2:{ injection E as <- <-. split; [split; cbn; eauto|]. split; [reflexivity|]. split; [auto|]. apply lru_to_hg_ops_raises in Eo. subst e. split; [now left|]. auto. }
  destruct (exec_loop_st s _ ops') as [x ex] eqn:Ex. destruct (exec_loop_st_prefix _ _ _ _ _ Ex) as [(ops1 & ops2 & _ & Ex1) Hex].
  destruct T as [T1 T2 T3 T4 T5].
  assert (X0 : xinv c s G (mk_x (s_heap s) [] [] [] [])) by (split; [exact T2|exact T3|constructor]).
  destruct (exec_loop_bytes c s ops1 _ x G X0 Ex1) as (G' & _ & [X1 X2 X3]).
  set (s' := mk_storage (x_heap x) (s_static s) (s_lru s)) in *.
  assert (T' : tinv c G' s') by (split; auto; now apply sinv_heap). clear T1 T2 T3 T4 T5 X0.
  destruct ex as [e|].
  { injection E as <- <-. split; [split; cbn; eauto|]. split; [reflexivity|]. split; [auto|]. split; [exact Hex|]. auto. }
  set (y := mk_y s' g None) in *. set (cur := zsymdiff (y_cur gid y) (x_st x)) in *.
  assert (Y0 : yinv any y) by (split; [exact GF|discriminate]).
  assert (Sc : zsorted cur) by (apply zsymdiff_sorted; eapply ycur_sorted; exact Y0).
  assert (S1 : ystep c gid y (y_set gid y cur)) by (apply yset_step; [apply T'|exact Y0|exact Sc]). pose proof S1 as (A1 & A2 & A3).
  set (y1 := y_set gid y cur) in *.
  assert (Fail : forall e, raised_by_peer e -> winv (mk_code c (y_store y1) (y_groups y1)) /\ c = c /\
    (forall id p, id <> gid -> dead c p -> has (k_groups k) id p -> has (y_groups y1) id p) /\
    raised_by_peer e /\ s_lru (y_store y1) = s_lru s /\ s_static (y_store y1) = s_static s /\ forall id, id <> gid -> gget (y_groups y1) id = gget (k_groups k) id).
  { intros e He. split; [split; cbn [k_cfg k_store k_groups]; [exact W1|exists G'; unfold y1; rewrite yset_store; exact T'|apply A2]|]. split; [reflexivity|].
    split; [intros id p N1 N2 N3; apply A3; auto; now apply Hh|]. split; [exact He|]. unfold y1. rewrite yset_store. split; [reflexivity|]. split; [reflexivity|].
    intros id Hn. unfold y_set. cbn [y_orphan y y_groups]. rewrite gget_gset_ne by congruence. now apply Hg. }
  destruct (append_refs s' _ _) as [hd|e] eqn:Ea; cbn [bind] in E.
  2:{ injection E as <- <-. cbn [k_cfg k_store k_groups]. apply Fail. eapply append_refs_raises; eauto. }
  match type of E with context [if c_hg_adjust c then ?M else Ok []] => destruct (if c_hg_adjust c then M else Ok []) as [later|e] eqn:El end; cbn [bind] in E.
  2:{ injection E as <- <-. cbn [k_cfg k_store k_groups]. apply Fail. destruct (c_hg_adjust c); [|discriminate]. revert El. apply mapm_raises. intros i e' H.
      destruct (lookup_idx s' i) as [[? ?]|] eqn:Elk; cbn [bind] in H; [discriminate|]. injection H as ->. now apply lookup_e in Elk. }
  destruct (store_loop_any c gid (x_later x) y1 W1 A1 A2) as (y2 & E2 & S2). rewrite E2 in E. cbn [bind] in E. pose proof S2 as (B1 & B2 & B3).
  destruct (adjust_loop_any c gid later y2 W1 B1 B2) as (y3 & E3 & S3). rewrite E3 in E. cbn [bind] in E. pose proof S3 as (D1 & D2 & D3).
  injection E as <- <-. cbn [k_cfg k_store k_groups]. split; [split; cbn [k_cfg k_store k_groups]; [exact W1| |apply D2]|].
  - exists G'. eapply adjust_loop_bytes; [exact W1| | |exact E3].
    + eapply store_loop_bytes; [exact W1| | |exact E2]; [unfold y1; rewrite yset_store; exact T'|].
      eapply Forall_impl; [|exact X3]. cbn. intros a [Ha Hb]. split; auto.
    + destruct (c_hg_adjust c); [|injection El as <-; constructor]. apply Forall_forall. intros [e i] He. cbn [fst].
      destruct (mapm_in _ _ _ _ El He) as (j & _ & Ej). cbn beta in Ej. destruct (lookup_idx _ j) as [[e' q]|] eqn:Elk; [|discriminate]. cbn [bind] in Ej. injection Ej as -> ->.
      eapply (lookup_usable c G' s'); eauto.
  - split; [reflexivity|]. split; [|exact I]. intros id p N1 N2 N3. apply D3; auto.
Qed.

(** ** A group that refers to an entry that cannot exist *)

Definition names (k : code) (i : Z) : Prop := if c_from_end (k_cfg k) then is_end (k_store k) i else live (k_store k) i.
Definition op_names (k : code) (o : op) : Prop :=
  match o with
  | OToggl _ i => names k i
  | OTrang _ i st => names k i /\ names k st
  | OClone _ i _ => names k i
  | OKvsto _ _ _ => True
  end.

Lemma names_live k ops : winv k -> Forall (op_names k) ops -> exists ops', lru_to_hg_ops (k_cfg k) (k_store k) ops = Ok ops' /\ Forall (op_live (k_store k)) ops'.
Proof.
  intros [W1 (G & T) _] H. pose proof (ti_sinv _ _ _ T) as [(S1 & S2 & S3) S4 _ _ _]. destruct W1 as [C1 C2 C3]. unfold lru_to_hg_ops, op_names, names in *.
  destruct (c_from_end (k_cfg k)); [|exists ops; split; [reflexivity|]; eapply Forall_impl; [|exact H]; intros []; auto].
  assert (L : forall i, is_end (k_store k) i -> exists q, lru_to_hg (k_store k) i = Ok q /\ live (k_store k) q).
  { intros i Hi. destruct (lru_to_hg_ok 65 (c_max_index (k_cfg k)) (k_store k) i ltac:(lia) S4 (eq_sym S2) Hi) as (q & E & Hq & _). eauto. }
  induction ops as [|o ops IH]; [exists []; split; [reflexivity|constructor]|]. inversion H as [|? ? H1 H2]; subst. destruct (IH H2) as (ops' & E & F). cbn [mapm].
  rewrite E. destruct o as [e i|e i st|e i v|e kk v]; cbn [map_index].
  - destruct (L i H1) as (q & -> & Hq). cbn [bind]. eexists. split; [reflexivity|]. constructor; assumption.
  - destruct H1 as [H1 H1']. destruct (L i H1) as (q & -> & Hq). destruct (L st H1') as (q' & -> & Hq'). cbn [bind]. eexists. split; [reflexivity|]. constructor; [split|]; assumption.
  - destruct (L i H1) as (q & -> & Hq). cbn [bind]. eexists. split; [reflexivity|]. constructor; assumption.
  - cbn [bind]. eexists. split; [reflexivity|]. constructor; [exact I|assumption].
Qed.

Lemma zsymdiff_notin p t : forall s, ~ In p t -> In p (zsymdiff s t) <-> In p s.
Proof.
  unfold zsymdiff. induction t as [|x t IH]; intros s H; cbn [fold_left]; [tauto|]. rewrite IH by (intros C; apply H; now right). rewrite ztoggle_In.
  assert (p <> x) by (intros ->; apply H; now left). tauto.
Qed.

Lemma live_toggles c s ep p ops : cfg_ok c -> sinv c s -> dead c p -> Forall (op_live s) ops -> ~ In p (toggles ep ops).
Proof.
  intros Hc Hs Hp H C. unfold toggles in C. apply in_flat_map in C as (o & Ho & C). rewrite Forall_forall in H. specialize (H o Ho).
  pose proof (live_range c s) as R. destruct o as [e i|e i st|e i v|e k v]; cbn [op_live] in H; try contradiction; (destruct (Bool.eqb ep e); [|contradiction]).
  - destruct C as [<-|[]]. specialize (R i Hc Hs H). destruct Hp; lia.
  - destruct H as [H1 H2]. pose proof (R i Hc Hs H1). pose proof (R st Hc Hs H2). unfold xrange in C. apply in_map_iff in C as (n & <- & Hn). apply in_seq in Hn. destruct Hp; lia.
Qed.

Lemma append_refs_dead c s p : cfg_ok c -> sinv c s -> dead c p -> forall refs hd, In p refs -> exists e, append_refs s hd refs = Err e.
Proof.
  intros Hc Hs Hp. induction refs as [|i r IH]; intros hd H; [contradiction|]. cbn [append_refs]. destruct H as [->|H].
  - destruct (lookup_dead c s p Hc Hs Hp) as [-> | ->]; cbn [bind]; eauto.
  - destruct (lookup_idx s i) as [[a b]|e]; cbn [bind]; [now apply IH|eauto].
Qed.

Lemma execute_poisoned ref k ops gid p k' r : winv k -> (forall z x, In x z -> In x (ref z)) -> dead (k_cfg k) p -> has (k_groups k) gid p ->
  (exists ops', lru_to_hg_ops (k_cfg k) (k_store k) ops = Ok ops' /\ Forall (op_live (k_store k)) ops') ->
  execute_ops_st ref k ops gid = (k', r) -> (exists e, r = Err e) /\ has (k_groups k') gid p.
Proof.
  intros W Hr Hp (z & Ez & Hz) (ops' & Eo & Hl) E. pose proof W as [W1 (G & T) W3]. pose proof (ti_sinv _ _ _ T) as Hs.
  unfold execute_ops_st in E. cbv zeta in E. rewrite Eo in E. set (c := k_cfg k) in *. set (s := k_store k) in *.
  assert (Hcl : clones_live s ops').
  { rewrite Forall_forall in Hl. split; [intros e i v H; exact (Hl _ H)|]. intros e i st H. apply (Hl _) in H as [H1 H2]. exact (live_xrange c s W1 Hs _ _ H1 H2). }
  destruct (exec_loop_ok c s W1 Hs ops' (mk_x (s_heap s) [] [] [] []) Hcl) as (x & Ex & X1 & X2 & X3). rewrite exec_loop_agree in Ex.
  destruct (exec_loop_st _ _ _) as [x' [e|]]; [discriminate|]. injection Ex as ->. cbn [x_st x_et] in X1, X2.
  assert (Ef : find_or_make (k_groups k) gid = k_groups k) by (unfold find_or_make; now rewrite Ez). rewrite Ef in E.
  set (s' := mk_storage (x_heap x) (s_static s) (s_lru s)) in *. unfold y_set in E. cbn [y_orphan] in E. unfold y_cur in E. cbn [y_orphan y_groups y_store] in E. rewrite Ez in E.
  assert (Hst : ~ In p (x_st x)) by (rewrite X1; rewrite zsymdiff_notin by (eapply live_toggles; eauto); intros []).
  assert (Het : ~ In p (x_et x)) by (rewrite X2; rewrite zsymdiff_notin by (eapply live_toggles; eauto); intros []).
  pose proof (gall_get any _ _ _ W3 Ez) as [Sz _].
  assert (Hc1 : In p (zsymdiff z (x_st x))) by (now apply zsymdiff_notin).
  assert (Hc2 : In p (zsymdiff (x_et x) (zsymdiff z (x_st x)))).
  { apply zsymdiff_In; [apply zsorted_NoDup, zsymdiff_sorted, Sz|]. now right. }
  destruct (append_refs_dead c s' p W1 (sinv_heap c s _ Hs) Hp (ref (zsymdiff (x_et x) (zsymdiff z (x_st x)))) (x_headers x)) as (e & Ea); [now apply Hr|].
  rewrite Ea in E. cbn [bind] in E. injection E as <- <-. split; [eauto|]. cbn [k_groups]. eexists. split; [apply gget_gset|exact Hc1].
Qed.
