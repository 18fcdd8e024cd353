(** * Property C23: delta2's table indices are unambiguous. *)
From Coq Require Import String List NArith ZArith Bool Arith Lia.
From Verif Require Import PyBase PyStr D2Store_Model D2Store_Proofs.
Import ListNotations.
Open Scope Z_scope.
Open Scope py_scope.

(** A table used by anybody: reserves, stores and pops in any order, for any
    entries and reference counts.  [log] lists every entry stored so far with
    the sequence number it was given.  A Store that raises changes nothing. *)
Inductive table_run (l0 : lru) : list entry -> lru -> Prop :=
| run_new : table_run l0 [] l0
| run_reserve log l h e n ok h' l' p : table_run l0 log l -> reserve h l e n = (ok, h', l', p) -> table_run l0 log l'
| run_pop log l h h' l' e : table_run l0 log l -> pop_one h l = Some (h', l', e) -> table_run l0 log l'
| run_store log l h e l' e' q : table_run l0 log l -> store h l e = Ok l' -> dq_get (l_ring l') (-1) = Ok (e', q) ->
    table_run l0 (log ++ [(e, q)]) l'.

(** The entry that was given number [q] last. *)
Fixpoint last_given (log : list entry) (q : Z) : option kv :=
  match log with
  | [] => None
  | (e, q') :: r => match last_given r q with Some e' => Some e' | None => if q' =? q then Some e else None end
  end.

Lemma table_run_inv O M maxb items log l : 0 <= O < M -> items <> 0 -> items <= M - O ->
  table_run (lru_new maxb (Some items) (Some M) O) log l ->
  linv O M l /\ l_items l = Some items /\ exists old, log = old ++ l_ring l.
Proof.
  intros HO Hi Hc H. induction H as [|log l h e n ok h' l' p H IH E|log l h h' l' e H IH E|log l h e l' e' q H IH E Eq].
  - split; [now apply linv_new|]. split; [reflexivity|]. now exists [].
  - destruct IH as (I1 & I2 & old & I3). split; [eapply reserve_linv; eauto|].
    apply reserve_suffix in E as ((g & Eg) & Ei & _). split; [congruence|]. exists (old ++ g). now rewrite I3, Eg, app_assoc.
  - destruct IH as (I1 & I2 & old & I3). split; [eapply pop_one_linv; eauto|].
    apply pop_one_ring in E as (Eg & Ei & _). split; [congruence|]. exists (old ++ [e]). now rewrite I3, Eg, <- app_assoc.
  - destruct IH as (I1 & I2 & old & I3). pose proof (store_ring _ _ _ _ E) as (Er & Ei & _). rewrite Er, dq_last in Eq. injection Eq as <- <-.
    split; [|split; [congruence|exists old; now rewrite I3, Er, app_assoc]]. eapply store_linv; eauto. unfold store in E. cbv zeta in E. rewrite I2 in E.
    destruct (match l_maxb l with Some m => _ | None => _ end); [discriminate|]. destruct (Z.eqb_spec items 0); [lia|]. cbn [negb andb] in E.
    destruct (Z.ltb_spec items (ring_len l + 1)); [discriminate|]. lia.
Qed.

Lemma last_given_app a b q : last_given (a ++ b) q = match last_given b q with Some e => Some e | None => last_given a q end.
Proof. induction a as [|[e s] a IH]; cbn; [now destruct (last_given b q)|]. rewrite IH. destruct (last_given b q); reflexivity. Qed.

Lemma last_given_in r q e : NoDup (map snd r) -> In (e, q) r -> last_given r q = Some e.
Proof.
  induction r as [|[e0 q0] r IH]; cbn; [contradiction|]. intros Hn H. inversion Hn as [|? ? H1 H2]; subst. destruct H as [H|H].
  - injection H as -> ->. rewrite Z.eqb_refl. destruct (last_given r q) as [e'|] eqn:E; [|reflexivity]. exfalso. apply H1.
    clear -E. induction r as [|[e1 q1] r IH]; cbn in *; [discriminate|]. destruct (last_given r q) as [e2|]; [right; apply IH; auto|].
    destruct (Z.eqb_spec q1 q); [now left|discriminate].
  - now rewrite (IH H2 H).
Qed.

(** Live entries have different numbers, all within the number space, and a
    number is looked up as the entry that was given it last; numbers of entries
    that are gone are not found. *)
Theorem C23_numbers_unambiguous : forall O M maxb items log l, 0 <= O < M -> items <> 0 -> items <= M - O ->
  table_run (lru_new maxb (Some items) (Some M) O) log l ->
  NoDup (map snd (l_ring l)) /\
  (forall q, In q (map snd (l_ring l)) -> O <= q < M /\ exists e, lookup l q = Ok (e, q) /\ last_given log q = Some e) /\
  (forall q, q < M -> ~ In q (map snd (l_ring l)) -> lookup l q = Err IndexError).
Proof.
  intros O M maxb items log l HO Hi Hc H. destruct (table_run_inv _ _ _ _ _ _ HO Hi Hc H) as (I & _ & old & Eo).
  pose proof (linv_nodup O M HO l I) as Hn. split; [exact Hn|]. split.
  - intros q Hq. apply in_map_iff in Hq as ([e q'] & <- & Hin). cbn [snd]. apply In_nth_error in Hin as (i & Hin).
    split; [exact (linv_range O M HO l i _ I Hin)|]. exists e. split; [exact (linv_lookup O M HO l i _ I Hin)|].
    rewrite Eo, last_given_app, (last_given_in _ _ e); auto. eapply nth_error_In; eauto.
  - intros q Hlt Hq. eapply linv_lookup_dead; eauto.
Qed.
Print Assumptions C23_numbers_unambiguous.

(** Without limits on octets and entries everything is accepted and nothing is
    lost; with a limit on octets only, everything of that size at most. *)
Theorem C23_accepts : forall h l e, l_items l = None ->
  (l_maxb l = None -> reserve h l e 1 = (true, h, l, [])) /\
  (forall m, l_maxb l = Some m -> m <> 0 -> fst (fst (fst (reserve h l e 1))) = false ->
     exists h' l' p, reserve h l e 1 = (false, h', l', p) /\ l_ring l' = [] /\ m < l_bytes l' + kv_size h' e).
Proof.
  intros h l e Hi. unfold reserve. rewrite Hi. cbn [is_zero orb]. split.
  - intros ->. reflexivity.
  - intros m -> Hm. cbn [is_zero]. assert (Z : match m with 0 => true | _ => false end = false) by (destruct m; [congruence|reflexivity|reflexivity]).
    rewrite Z.
    assert (G : forall n h l p, length (l_ring l) = n ->
      fst (fst (fst (pop_while (fun h l => m <? l_bytes l + kv_size h e) n h l p))) = false ->
      exists h' l' p', pop_while (fun h l => m <? l_bytes l + kv_size h e) n h l p = (false, h', l', p') /\ l_ring l' = [] /\ m < l_bytes l' + kv_size h' e).
    { clear. induction n as [|n IH]; intros h l p Hn; cbn [pop_while]; destruct (Z.ltb_spec m (l_bytes l + kv_size h e)) as [L|L]; try discriminate.
      - unfold pop_one. destruct (l_ring l) eqn:El; [|discriminate]. intros _. exists h, l, p. auto.
      - unfold pop_one. destruct (l_ring l) as [|x r] eqn:El; [discriminate|]. cbn [fst snd]. intros Hf. apply IH in Hf; [exact Hf|].
        cbn [set_ring l_ring]. cbn in Hn. lia. }
    intros Hf. exact (G _ h l [] eq_refl Hf).
Qed.
Print Assumptions C23_accepts.

(** Both kinds of index of a storage with a static table: [is_hg] are the
    sequence numbers in use, [is_end] the positions counted from the newest
    entry on (dynamic entries first). *)
Definition is_hg (s : storage) (q : Z) : Prop := 0 <= q < ring_len (s_static s) \/ In q (map snd (l_ring (s_lru s))).
Definition is_end (s : storage) (i : Z) : Prop := 0 <= i < ring_len (s_lru s) + ring_len (s_static s).

Lemma hg_to_lru_ok O M s q : 0 <= O < M -> linv O M (s_lru s) -> O = ring_len (s_static s) -> is_hg s q ->
  exists i, hg_to_lru s q = Ok i /\ is_end s i /\ lru_to_hg s i = Ok q.
Proof.
  intros HO I Eo Hq. pose proof I as [_ _ HL _]. unfold hg_to_lru, is_end, lru_to_hg. unfold ring_len in HL. destruct Hq as [Hq|Hq].
  - destruct (Z.leb_spec (ring_len (s_static s)) q); [lia|]. cbn [bind]. eexists. split; [reflexivity|]. unfold ring_len in *. split; [lia|].
    match goal with |- context[?a <? ?b] => destruct (Z.ltb_spec a b) end; [lia|]. f_equal. lia.
  - apply in_map_iff in Hq as (x & <- & Hin). apply In_nth_error in Hin as (i & Hin). pose proof (linv_range O M HO _ i x I Hin) as Hr.
    destruct (Z.leb_spec (ring_len (s_static s)) (snd x)); [|lia]. rewrite (linv_idx O M HO _ i x I Hin). cbn [bind].
    assert (i < length (l_ring (s_lru s)))%nat by (apply nth_error_Some; congruence).
    eexists. split; [reflexivity|]. unfold ring_len in *. split; [lia|].
    match goal with |- context[?a <? ?b] => destruct (Z.ltb_spec a b) end; [|lia].
    match goal with |- context[dq_get _ ?z] => replace z with (Z.of_nat i - Z.of_nat (length (l_ring (s_lru s)))) by lia end.
    rewrite (dq_get_right _ _ _ Hin). reflexivity.
Qed.

Lemma lru_to_hg_ok O M s i : 0 <= O < M -> linv O M (s_lru s) -> O = ring_len (s_static s) -> is_end s i ->
  exists q, lru_to_hg s i = Ok q /\ is_hg s q /\ hg_to_lru s q = Ok i.
Proof.
  intros HO I Eo Hi. unfold lru_to_hg. unfold is_end in Hi. destruct (Z.ltb_spec i (ring_len (s_lru s))) as [L|L].
  - assert (Hn : exists x, nth_error (l_ring (s_lru s)) (length (l_ring (s_lru s)) - S (Z.to_nat i)) = Some x).
    { destruct (nth_error _ _) eqn:E; [eauto|]. apply nth_error_None in E. unfold ring_len in *. lia. }
    destruct Hn as (x & Hx). unfold ring_len in L. pose proof (dq_get_right _ _ _ Hx) as Hg.
    replace (Z.of_nat (length (l_ring (s_lru s)) - S (Z.to_nat i)) - Z.of_nat (length (l_ring (s_lru s)))) with (- (i + 1)) in Hg by lia.
    rewrite Hg. cbn [bind]. exists (snd x). split; [reflexivity|].
    assert (Hin : is_hg s (snd x)). { right. apply in_map. eapply nth_error_In; eauto. } split; [exact Hin|].
    unfold hg_to_lru. pose proof (linv_range O M HO _ _ x I Hx) as Hr. destruct (Z.leb_spec (ring_len (s_static s)) (snd x)); [|lia].
    rewrite (linv_idx O M HO _ _ x I Hx). cbn [bind]. f_equal. unfold ring_len. lia.
  - eexists. split; [reflexivity|]. split; [left; lia|]. unfold hg_to_lru.
    match goal with |- context[?a <=? ?b] => destruct (Z.leb_spec a b) end; [lia|]. cbn [bind]. f_equal. lia.
Qed.

Theorem C23_translation_bijective : forall M maxb items log s,
  ring_len (s_static s) < M -> items <> 0 -> items <= M - ring_len (s_static s) ->
  table_run (lru_new maxb (Some items) (Some M) (ring_len (s_static s))) log (s_lru s) ->
  (forall q, is_hg s q -> exists i, hg_to_lru s q = Ok i /\ is_end s i /\ lru_to_hg s i = Ok q) /\
  (forall i, is_end s i -> exists q, lru_to_hg s i = Ok q /\ is_hg s q /\ hg_to_lru s q = Ok i).
Proof.
  intros M maxb items log s HM Hi Hc H. assert (HO : 0 <= ring_len (s_static s) < M) by (unfold ring_len in *; lia).
  destruct (table_run_inv _ _ _ _ _ _ HO Hi Hc H) as (I & _). split; intros x Hx.
  - now apply (hg_to_lru_ok (ring_len (s_static s)) M).
  - now apply (lru_to_hg_ok (ring_len (s_static s)) M).
Qed.
Print Assumptions C23_translation_bijective.

(** A table of three entries with numbers 65 to 68, after six stores: the
    numbering has wrapped, 65 has been given twice and 68 and 65 are live
    together. *)
Definition ex_kv (n : N) : kv := mk_kv [n] 0 [n; n] 0.
Fixpoint ex_fill (n : nat) (l : lru) : lru :=
  match n with
  | O => l
  | S m => let l := ex_fill m l in
           let '(_, h, l, _) := reserve [2] l (ex_kv (N.of_nat n)) 1 in
           match store h l (ex_kv (N.of_nat n)) with Ok l => l | Err _ => l end
  end.
Definition ex_new : lru := lru_new (Some 4096) (Some 3) (Some 69) 65.

Lemma ex_fill_run n : exists log, table_run ex_new log (ex_fill n ex_new).
Proof.
  induction n as [|n (log & IH)]; [exists []; constructor|]. cbn [ex_fill].
  destruct (reserve [2] (ex_fill n ex_new) (ex_kv (N.of_nat (S n))) 1) as [[[ok h] l] p] eqn:E.
  pose proof (run_reserve _ _ _ _ _ _ _ _ _ _ IH E) as R. destruct (store h l _) as [l'|] eqn:E2; [|eauto].
  pose proof (store_ring _ _ _ _ E2) as (Er & _). exists (log ++ [(ex_kv (N.of_nat (S n)), l_seq l)]). eapply run_store; eauto. rewrite Er. apply dq_last.
Qed.

Example C23_nontrivial : (exists log, table_run ex_new log (ex_fill 6 ex_new)) /\
  map snd (l_ring (ex_fill 6 ex_new)) = [68; 65; 66] /\
  lookup (ex_fill 6 ex_new) 65 = Ok (ex_kv 5, 65) /\
  match storage_new 4096 3 69 with
  | Ok s0 => let s := mk_storage (s_heap s0) (s_static s0) (ex_fill 6 ex_new) in
      ring_len (s_static s) = 65 /\
      map (lru_to_hg s) [0; 1; 2; 3; 66; 67] = [Ok 66; Ok 65; Ok 68; Ok 64; Ok 1; Ok 0] /\
      map (hg_to_lru s) [66; 65; 68; 64; 1; 0] = [Ok 0; Ok 1; Ok 2; Ok 3; Ok 66; Ok 67]
  | Err _ => False
  end.
Proof. split; [apply ex_fill_run|]. vm_compute. auto. Qed.

(** More octets than the limit are refused, after the entry before them is gone. *)
Example C23_accepts_nontrivial :
  let l := mk_lru [(ex_kv 1, 65)] 2 None (Some 1) (Some 69) 65 66 in
  l_items l = None /\ fst (fst (fst (reserve [2] l (ex_kv 2) 1))) = false /\
  reserve [2] (lru_new None None None 65) (ex_kv 2) 1 = (true, [2], lru_new None None None 65, []).
Proof. vm_compute. auto. Qed.
