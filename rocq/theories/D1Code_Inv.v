(** * An invariant of delta v1's codec, kept by everything it does. *)
From Coq Require Import String List NArith ZArith Bool Arith Lia Permutation Sorted.
From Verif Require Import PyBase PyStr Lib_Model Lib_Proofs D2Store_Model D2Code_Model D2Code_Sets D1Wire_Model D1Code_Model.
Import ListNotations.
Open Scope Z_scope.
Open Scope py_scope.

(** ** Identifiers *)

Lemma next_id_range mn n : 0 <= mn <= n -> mn < 2 ^ 16 -> mn <= next_id mn n < 2 ^ 16.
Proof. intros H H2. unfold next_id. destruct (Z.leb_spec (2 ^ 16) (n + 1)); lia. Qed.

Lemma unused_loop_ok fuel used mn first : 0 <= mn < 2 ^ 16 -> forall idx i, mn <= idx < 2 ^ 16 -> unused_loop fuel used mn first idx = Ok i ->
  used i = false /\ mn <= i < 2 ^ 16.
Proof.
  intros Hm. induction fuel as [|f IH]; intros idx i Hi; cbn [unused_loop]; destruct (used idx) eqn:Eu; try discriminate; try (intros E; injection E as <-; auto).
  cbv zeta. destruct (next_id mn idx =? first); [discriminate|]. apply IH. apply next_id_range; lia.
Qed.
Lemma unused_id_ok used mn n i : 0 <= mn <= n -> mn < 2 ^ 16 -> unused_id used mn n = Ok i -> used i = false /\ mn <= i < 2 ^ 16.
Proof. intros H H2. unfold unused_id. apply unused_loop_ok; [lia|]. now apply next_id_range. Qed.

(** ** Sets of groups *)

Lemma existsb_in g l : existsb (N.eqb g) l = true <-> In g l.
Proof.
  rewrite existsb_exists. split; [intros (x & H & E); apply N.eqb_eq in E; now subst|]. intros H. exists g. split; [exact H|apply N.eqb_refl].
Qed.
Lemma gmem_in g h : gmem g h = true <-> In g (gels h).
Proof. apply existsb_in. Qed.
Lemma gels_nodup h : NoDup (gels h).
Proof.
  induction h as [|[g|g|] h IH]; cbn [gels]; [constructor| |now apply NoDup_filter|constructor].
  destruct (existsb (N.eqb g) (gels h)) eqn:E; [exact IH|]. constructor; [|exact IH]. intros C. apply existsb_in in C. congruence.
Qed.
Lemma gels_add g h x : In x (gels (GAdd g :: h)) <-> x = g \/ In x (gels h).
Proof.
  cbn [gels]. destruct (existsb (N.eqb g) (gels h)) eqn:E; [|cbn; intuition]. apply existsb_in in E. intuition. now subst.
Qed.
Lemma gels_rem g h x : In x (gels (GRem g :: h)) <-> x <> g /\ In x (gels h).
Proof. cbn [gels]. rewrite filter_In, negb_true_iff, N.eqb_neq. intuition. Qed.
Lemma gels_toggle gid e x : In x (gels (v_hist (toggle_ve gid e))) <->
  (x <> gid /\ In x (gels (v_hist e))) \/ (x = gid /\ ~ In gid (gels (v_hist e))).
Proof.
  unfold toggle_ve. cbn [v_hist]. destruct (gmem gid (v_hist e)) eqn:E.
  - rewrite gels_rem. apply gmem_in in E. intuition.
  - rewrite gels_add. assert (~ In gid (gels (v_hist e))) by (intros C; apply gmem_in in C; congruence). destruct (N.eq_dec x gid) as [->|N]; intuition.
Qed.

(** ** Header groups *)

Lemma gget_gset_ne g a b s : a <> b -> gget (gset g a s) b = gget g b.
Proof.
  intros H. induction g as [|[i t] g IH]; cbn; [destruct (N.eqb_spec a b); congruence|].
  destruct (N.eqb_spec i a) as [->|H1]; cbn; [destruct (N.eqb_spec a b); congruence|]. destruct (N.eqb_spec i b); [reflexivity|exact IH].
Qed.
Lemma gget_gset_case g a b s : gget (gset g a s) b = if N.eqb a b then Some s else gget g b.
Proof. destruct (N.eqb_spec a b) as [->|H]; [apply gget_gset|now apply gget_gset_ne]. Qed.
Lemma gset_gset g a s t : gset (gset g a s) a t = gset g a t.
Proof.
  induction g as [|[i u] g IH]; cbn; [now rewrite N.eqb_refl|]. destruct (N.eqb_spec i a) as [->|H]; cbn; [now rewrite N.eqb_refl|].
  destruct (N.eqb_spec i a); [congruence|now rewrite IH].
Qed.

Lemma remove_idx_ok i ids : forall g, (forall id, In id ids -> gget g id <> None) ->
  exists g', remove_idx g i ids = Ok g' /\ forall id, gget g' id = match gget g id with
    | Some z => Some (if existsb (N.eqb id) ids then zremove i z else z) | None => None end.
Proof.
  assert (RR : forall z, zremove i (zremove i z) = zremove i z).
  { unfold zremove. induction z as [|a z IH]; [reflexivity|]. cbn [filter]. destruct (negb (a =? i)) eqn:E; [|exact IH]. cbn [filter]. now rewrite E, IH. }
  induction ids as [|a ids IH]; intros g H; cbn [remove_idx].
  { exists g. split; [reflexivity|]. intros id. cbn. destruct (gget g id); reflexivity. }
  destruct (gget g a) as [z|] eqn:Ea; [|exfalso; exact (H a (or_introl eq_refl) Ea)].
  destruct (IH (gset g a (zremove i z))) as (g' & E & G).
  { intros id Hid. rewrite gget_gset_case. destruct (N.eqb_spec a id); [discriminate|]. apply H. now right. }
  exists g'. split; [exact E|]. intros id. rewrite G, gget_gset_case. cbn [existsb]. rewrite (N.eqb_sym id a). destruct (N.eqb_spec a id) as [->|N].
  - rewrite Ea. cbn [orb]. destruct (existsb (N.eqb id) ids); [now rewrite RR|reflexivity].
  - reflexivity.
Qed.

(** ** Finding *)

Definition pair_of (e : ve) : str * str := (v_key e, v_val e).

Lemma find_idx_some l i e : find_idx l i = Some e -> In e l /\ v_idx e = i.
Proof. intros H. apply find_some in H as [H1 H2]. apply Z.eqb_eq in H2. auto. Qed.
Lemma find_idx_none l i : find_idx l i = None -> forall e, In e l -> v_idx e <> i.
Proof. intros H e He E. apply (find_none _ _ H) in He. apply Z.eqb_neq in He. auto. Qed.
Lemma nodup_map_eq {A B} (f : A -> B) l a b : NoDup (map f l) -> In a l -> In b l -> f a = f b -> a = b.
Proof.
  induction l as [|x l IH]; [contradiction|]. cbn [map]. intros Hn Ha Hb E. inversion Hn as [|? ? N1 N2]; subst.
  destruct Ha as [<-|Ha], Hb as [<-|Hb]; auto.
  - exfalso. apply N1. rewrite E. now apply in_map.
  - exfalso. apply N1. rewrite <- E. now apply in_map.
Qed.
Lemma find_idx_in l e : NoDup (map v_idx l) -> In e l -> find_idx l (v_idx e) = Some e.
Proof.
  intros Hn Hi. destruct (find_idx l (v_idx e)) as [e'|] eqn:E.
  - apply find_idx_some in E as [E1 E2]. f_equal. eapply nodup_map_eq; eauto.
  - exfalso. exact (find_idx_none _ _ E e Hi eq_refl).
Qed.
Lemma find_val_some l k v e : find_val l k v = Some e -> In e l /\ pair_of e = (k, v).
Proof.
  intros H. apply find_some in H as [H1 H2]. apply andb_true_iff in H2 as [H2 H3]. split; [exact H1|]. unfold pair_of.
  destruct (str_eqb_spec (v_key e) k); [|discriminate]. destruct (str_eqb_spec (v_val e) v); [|discriminate]. congruence.
Qed.
Lemma find_val_none l k v : find_val l k v = None -> forall e, In e l -> pair_of e <> (k, v).
Proof.
  intros H e He E. apply (find_none _ _ H) in He. unfold pair_of in E. injection E as E1 E2. rewrite E1, E2, !str_eqb_refl in He. discriminate.
Qed.

Lemma find_key_app l k k' i : find_key (l ++ [(k', i)]) k = match find_key l k with Some j => Some j | None => if str_eqb k' k then Some i else None end.
Proof. induction l as [|[a j] l IH]; cbn; [reflexivity|]. destruct (str_eqb a k); [reflexivity|exact IH]. Qed.
Lemma find_kidx_app l i i' k : find_kidx (l ++ [(i', k)]) i = match find_kidx l i with Some j => Some j | None => if i' =? i then Some k else None end.
Proof. induction l as [|[a j] l IH]; cbn; [reflexivity|]. destruct (a =? i); [reflexivity|exact IH]. Qed.

(** ** The invariant *)

(** The entries of the list and the header groups agree. *)
Record sync (l : list ve) (g : groups) : Prop := {
  sy_sorted : forall id z, gget g id = Some z -> zsorted z;
  sy_in : forall id z, gget g id = Some z -> forall i, In i z <-> exists e, In e l /\ v_idx e = i /\ In id (gels (v_hist e));
  sy_dom : forall e id, In e l -> In id (gels (v_hist e)) -> gget g id <> None }.

Section Inv.
Context (dk : str).

Record tinv (t : store1) : Prop := {
  ti_ids : NoDup (map v_idx (t_lru t));
  ti_range : forall e, In e (t_lru t) -> n_defaults < v_idx e < 2 ^ 16;
  ti_lid : n_defaults <= t_lid t < 2 ^ 16;
  ti_pairs : NoDup (map pair_of (t_lru t));
  ti_known : forall e, In e (t_lru t) -> find_key (t_keys t) (v_key e) <> None;
  ti_kidx : forall k i, find_key (t_keys t) k = Some i -> k <> dk -> find_kidx (t_kidx t) i = Some k;
  ti_krange : forall k i, find_key (t_keys t) k = Some i -> 0 <= i < 2 ^ 16;
  ti_kid : 0 <= t_kid t < 2 ^ 16;
  ti_num : t_num t = Z.of_nat (length (t_lru t)) }.

Record inv1 (c : code1) : Prop := { in_t : tinv (d_store c); in_g : sync (t_lru (d_store c)) (d_groups c) }.

Lemma inv1_new maxb maxv : inv1 (code1_new dk maxb maxv).
Proof.
  split; cbn [code1_new d_store d_groups store1_new t_lru]; [|split; cbn; [discriminate|discriminate|contradiction]].
  split; cbn; unfold n_defaults; try (constructor; fail); try contradiction; try lia.
  - intros k i. destruct (str_eqb_spec dk k); [congruence|discriminate].
  - intros k i. destruct (str_eqb_spec dk k); [|discriminate]. intros E. injection E as <-. lia.
Qed.

(** Every group stays within a bound. *)
Definition bounded (n : nat) (g : groups) : Prop := forall id z, gget g id = Some z -> (length z <= n)%nat.

Lemma zremove_length i z : (length (zremove i z) <= length z)%nat.
Proof. unfold zremove. induction z as [|a z IH]; cbn [filter length]; [lia|]. destruct (negb (a =? i)); cbn [length]; lia. Qed.
Lemma zadd_length i z : (length (zadd i z) <= S (length z))%nat.
Proof.
  induction z as [|a z IH]; cbn; [lia|]. destruct (i <? a); cbn; [lia|]. destruct (i =? a); cbn; lia.
Qed.

(** *** Removing the oldest entry *)

Definition smaller (g g' : groups) : Prop := forall id, match gget g id, gget g' id with
  | Some z, Some z' => (length z' <= length z)%nat | None, None => True | _, _ => False end.
Lemma smaller_refl g : smaller g g.
Proof. intros id. destruct (gget g id); auto. Qed.
Lemma smaller_trans g h k : smaller g h -> smaller h k -> smaller g k.
Proof. intros A B id. specialize (A id). specialize (B id). destruct (gget g id), (gget h id), (gget k id); try tauto; lia. Qed.

Record keeps (t t' : store1) : Prop := {
  ke_keys : t_keys t' = t_keys t;
  ke_kidx : t_kidx t' = t_kidx t;
  ke_kid : t_kid t' = t_kid t;
  ke_lid : t_lid t' = t_lid t;
  ke_maxv : t_maxv t' = t_maxv t;
  ke_maxb : t_maxb t' = t_maxb t;
  ke_lru : exists gone, t_lru t = gone ++ t_lru t' }.
Lemma keeps_refl t : keeps t t.
Proof. split; auto. now exists []. Qed.
Lemma keeps_trans a b c : keeps a b -> keeps b c -> keeps a c.
Proof. intros [A1 A2 A3 A4 A5 A6 (x & A7)] [B1 B2 B3 B4 B5 B6 (y & B7)]. split; try congruence. exists (x ++ y). now rewrite <- app_assoc, <- B7. Qed.

Lemma pop_one1_ok pin c : inv1 c ->
  (t_lru (d_store c) = [] /\ pop_one1 dk pin c = Ok None) \/
  exists e r c', t_lru (d_store c) = e :: r /\ pop_one1 dk pin c = Ok (Some c') /\ inv1 c' /\ keeps (d_store c) (d_store c') /\ smaller (d_groups c) (d_groups c') /\
    t_lru (d_store c') = r /\ t_size (d_store c') <= t_size (d_store c).
Proof.
  intros [T [S1 S2 S3]]. unfold pop_one1. cbv zeta. destruct (t_lru (d_store c)) as [|e r] eqn:El; [now left|]. right. exists e, r.
  destruct (remove_idx_ok (v_idx e) (gels (v_hist e)) (d_groups c)) as (g & Eg & G).
  { intros id Hid. apply (S3 e id); [now left|exact Hid]. }
  rewrite Eg. cbn [bind]. eexists. split; [reflexivity|]. split; [reflexivity|]. destruct T as [T1 T2 T3 T4 T5 T6 T7 T8 T9]. rewrite El in *.
  cbn [map] in T1, T4. inversion T1 as [|? ? N1 N2]; inversion T4 as [|? ? M1 M2]; subst.
  split; [split; [split|split]|split; [|split]]; cbn [d_store d_groups t_keys t_kidx t_kid t_lid t_maxv t_maxb t_lru t_num]; auto.
  - intros e' He'. apply T2. now right.
  - intros e' He'. apply T5. now right.
  - rewrite T9. cbn [length]. lia.
  - intros id z Hz. rewrite G in Hz. destruct (gget (d_groups c) id) as [z0|] eqn:E0; [|discriminate]. injection Hz as <-.
    destruct (existsb _ _); [apply zremove_sorted|]; eauto.
  - intros id z Hz i. rewrite G in Hz. destruct (gget (d_groups c) id) as [z0|] eqn:E0; [|discriminate]. injection Hz as <-.
    assert (B : In i z0 <-> (i = v_idx e /\ In id (gels (v_hist e))) \/ exists e', In e' r /\ v_idx e' = i /\ In id (gels (v_hist e'))).
    { rewrite (S2 id z0 E0 i). split.
      - intros (e' & [<-|H] & Hi & Hg); [left|right]; eauto.
      - intros [[-> H]|(e' & H & Hi & Hg)]; [exists e|exists e']; cbn; auto. }
    assert (NE : (exists e', In e' r /\ v_idx e' = i /\ In id (gels (v_hist e'))) -> i <> v_idx e).
    { intros (e' & H & Hi & _) ->. apply N1. rewrite <- Hi. now apply in_map. }
    destruct (existsb (N.eqb id) (gels (v_hist e))) eqn:Ex.
    + rewrite zremove_In, B. intuition.
    + rewrite B. assert (~ In id (gels (v_hist e))) by (intros C; apply existsb_in in C; congruence). intuition.
  - intros e' id He' Hid. rewrite G. destruct (gget (d_groups c) id) eqn:E0; [discriminate|]. intros _. apply (S3 e' id); [now right|exact Hid|exact E0].
  - split; auto. exists [e]. cbn. now rewrite El.
  - intros id. rewrite G. destruct (gget (d_groups c) id) as [z0|] eqn:E0; [|exact I]. destruct (existsb _ _); [apply zremove_length|lia].
  - split; [reflexivity|]. cbn [t_size]. match goal with |- context[if ?b then _ else _] => destruct b end; lia.
Qed.

Lemma space_loop_ok pin adding fuel : forall c, inv1 c -> (length (t_lru (d_store c)) <= fuel)%nat ->
  exists c' b, space_loop fuel dk pin adding c = Ok (c', b) /\ inv1 c' /\ keeps (d_store c) (d_store c') /\ smaller (d_groups c) (d_groups c') /\
  t_size (d_store c') <= t_size (d_store c) /\
  (if b then t_num (d_store c') + adding <= t_maxv (d_store c') else t_lru (d_store c') = []).
Proof.
  induction fuel as [|f IH]; intros c I Hf; cbn [space_loop];
    (destruct (Z.ltb_spec (t_maxv (d_store c)) (t_num (d_store c) + adding)) as [L|L];
     [|exists c, true; split; [reflexivity|]; split; [exact I|]; split; [apply keeps_refl|]; split; [apply smaller_refl|]; split; [lia|exact L]]);
    destruct (pop_one1_ok pin c I) as [[El Ep]|(e & r & c' & El & Ep & I' & K & S & Er & Hz)]; rewrite Ep; cbn [bind];
    try (exists c, false; split; [reflexivity|]; split; [exact I|]; split; [apply keeps_refl|]; split; [apply smaller_refl|]; split; [lia|exact El]).
  - rewrite El in Hf. cbn in Hf. lia.
  - destruct (IH c' I') as (c2 & b & E & I2 & K2 & S2 & Z2 & B2); [rewrite Er; rewrite El in Hf; cbn in Hf; lia|].
    exists c2, b. split; [exact E|]. split; [exact I2|]. split; [eapply keeps_trans; eauto|]. split; [eapply smaller_trans; eauto|]. split; [lia|exact B2].
Qed.

(** Room is made, or there is a NameError because the octets of the keys (less
    those of values that were removed) leave too little. *)
Lemma make_space_ok pin c space adding : inv1 c ->
  (exists c', make_space dk pin c space adding = Ok c' /\ inv1 c' /\ keeps (d_store c) (d_store c') /\ smaller (d_groups c) (d_groups c') /\
   t_size (d_store c') <= t_size (d_store c) /\
   (t_num (d_store c') + adding <= t_maxv (d_store c') \/ t_lru (d_store c') = [])) \/
  (make_space dk pin c space adding = Err NameError /\ t_maxb (d_store c) < t_size (d_store c) + space).
Proof.
  intros I. unfold make_space. destruct (space_loop_ok pin adding _ c I (le_n _)) as (c' & b & E & I' & K & S & Z1 & B). rewrite E. cbn [bind].
  destruct (b && (t_maxb (d_store c') <? t_size (d_store c') + space)) eqn:Eb.
  - right. split; [reflexivity|]. apply andb_true_iff in Eb as [_ Eb]. apply Z.ltb_lt in Eb. rewrite (ke_maxb _ _ K) in Eb. lia.
  - left. exists c'. split; [reflexivity|]. split; [exact I'|]. split; [exact K|]. split; [exact S|]. split; [exact Z1|]. destruct b; auto.
Qed.

(** *** Toggling *)

Lemma at_idx_map i gid l : map v_idx (at_idx i (toggle_ve gid) l) = map v_idx l /\ map pair_of (at_idx i (toggle_ve gid) l) = map pair_of l.
Proof.
  unfold at_idx. rewrite !map_map. split; apply map_ext; intros e; destruct (v_idx e =? i); reflexivity.
Qed.
Lemma at_idx_in i gid l e' : In e' (at_idx i (toggle_ve gid) l) <-> exists e, In e l /\ e' = if v_idx e =? i then toggle_ve gid e else e.
Proof. unfold at_idx. rewrite in_map_iff. split; intros (e & A & B); exists e; auto. Qed.

Definition live1 (c : code1) (i : Z) : Prop := exists e, In e (t_lru (d_store c)) /\ v_idx e = i.
Lemma live1_look c i : NoDup (map v_idx (t_lru (d_store c))) -> live1 c i -> exists e, look (t_lru (d_store c)) i = Ok e /\ In e (t_lru (d_store c)) /\ v_idx e = i.
Proof. intros Hn (e & He & <-). exists e. unfold look. now rewrite (find_idx_in _ _ Hn He). Qed.
Lemma look_live c i e : look (t_lru (d_store c)) i = Ok e -> In e (t_lru (d_store c)) /\ v_idx e = i.
Proof. unfold look. destruct (find_idx _ i) as [e'|] eqn:E; [|destruct (is_default i); discriminate]. intros H. injection H as <-. now apply find_idx_some. Qed.

Record same_but_hist (t t' : store1) : Prop := {
  sb_keys : t_keys t' = t_keys t;
  sb_kidx : t_kidx t' = t_kidx t;
  sb_kid : t_kid t' = t_kid t;
  sb_lid : t_lid t' = t_lid t;
  sb_size : t_size t' = t_size t;
  sb_num : t_num t' = t_num t;
  sb_maxv : t_maxv t' = t_maxv t;
  sb_maxb : t_maxb t' = t_maxb t;
  sb_lru : map (fun e => (v_idx e, v_key e, v_val e)) (t_lru t') = map (fun e => (v_idx e, v_key e, v_val e)) (t_lru t) }.
Lemma same_refl t : same_but_hist t t.
Proof. split; reflexivity. Qed.
Lemma same_trans a b c : same_but_hist a b -> same_but_hist b c -> same_but_hist a c.
Proof. intros [] []. split; congruence. Qed.

Lemma do_toggle_ok c gid i z : inv1 c -> gget (d_groups c) gid = Some z -> live1 c i ->
  exists c', do_toggle c gid i = Ok c' /\ inv1 c' /\ same_but_hist (d_store c) (d_store c') /\ d_groups c' = gset (d_groups c) gid (ztoggle i z).
Proof.
  intros [T [S1 S2 S3]] Hg Hl. unfold do_toggle. cbv zeta. pose proof T as [T1 T2 T3 T4 T5 T6 T7 T8 T9].
  destruct (live1_look c i T1 Hl) as (e0 & E0 & He0 & Hi0). rewrite E0, Hg. cbn [bind]. eexists. split; [reflexivity|].
  destruct (at_idx_map i gid (t_lru (d_store c))) as [M1 M2].
  split; [|split; [|reflexivity]].
  - split; [split|split]; cbn [d_store d_groups set_lru t_keys t_kidx t_kid t_lid t_maxv t_maxb t_lru t_num]; auto; try (rewrite M1 || rewrite M2; assumption).
    + intros e He. apply at_idx_in in He as (e' & He' & ->). destruct (v_idx e' =? i); apply (T2 e' He').
    + intros e He. apply at_idx_in in He as (e' & He' & ->). destruct (v_idx e' =? i); apply (T5 e' He').
    + rewrite T9. f_equal. unfold at_idx. now rewrite map_length.
    + intros id z' Hz. rewrite gget_gset_case in Hz. destruct (N.eqb_spec gid id) as [->|N]; [injection Hz as <-; apply ztoggle_sorted|]; eauto.
    + intros id z' Hz j.
      assert (B : (exists e, In e (at_idx i (toggle_ve gid) (t_lru (d_store c))) /\ v_idx e = j /\ In id (gels (v_hist e))) <->
        exists e, In e (t_lru (d_store c)) /\ v_idx e = j /\ In id (gels (v_hist (if v_idx e =? i then toggle_ve gid e else e)))).
      { split.
        - intros (e & He & Hj & Hd). apply at_idx_in in He as (e' & He' & ->). exists e'. split; [exact He'|]. split; [|exact Hd]. destruct (v_idx e' =? i); exact Hj.
        - intros (e & He & Hj & Hd). eexists. split; [apply at_idx_in; exists e; split; [exact He|reflexivity]|]. split; [|exact Hd]. destruct (v_idx e =? i); exact Hj. }
      rewrite B. clear B. rewrite gget_gset_case in Hz. destruct (N.eqb_spec gid id) as [<-|N].
      * injection Hz as <-. rewrite ztoggle_In, (S2 gid z Hg j), (S2 gid z Hg i). split.
        -- intros [[Hne (e & He & Hj & Hd)]|[-> Hne]].
           ++ exists e. split; [exact He|]. split; [exact Hj|]. destruct (Z.eqb_spec (v_idx e) i); [congruence|exact Hd].
           ++ exists e0. split; [exact He0|]. split; [exact Hi0|]. rewrite Hi0, Z.eqb_refl. apply gels_toggle. right. split; [reflexivity|]. intros C. apply Hne. eauto.
        -- intros (e & He & Hj & Hd). destruct (Z.eqb_spec (v_idx e) i) as [Ei|Ei].
           ++ right. split; [congruence|]. intros (e' & He' & Hi' & Hd'). assert (e' = e) by (apply (nodup_map_eq v_idx _ _ _ T1 He' He); congruence). subst e'.
              apply gels_toggle in Hd. tauto.
           ++ left. split; [congruence|]. eauto.
      * rewrite (S2 id z' Hz j). split.
        -- intros (e & He & Hj & Hd). exists e. split; [exact He|]. split; [exact Hj|]. destruct (v_idx e =? i); [apply gels_toggle; left; auto|exact Hd].
        -- intros (e & He & Hj & Hd). exists e. split; [exact He|]. split; [exact Hj|]. destruct (v_idx e =? i); [|exact Hd]. apply gels_toggle in Hd as [[_ Hd]|[C _]]; [exact Hd|congruence].
    + intros e id He Hd. rewrite gget_gset_case. destruct (N.eqb_spec gid id) as [->|N]; [discriminate|]. apply at_idx_in in He as (e' & He' & ->).
      apply (S3 e' id He'). destruct (v_idx e' =? i); [|exact Hd]. apply gels_toggle in Hd as [[_ Hd]|[C _]]; [exact Hd|congruence].
  - split; cbn [d_store set_lru t_keys t_kidx t_kid t_lid t_size t_num t_maxv t_maxb t_lru]; try reflexivity.
    unfold at_idx. rewrite map_map. apply map_ext. intros e. destruct (v_idx e =? i); reflexivity.
Qed.

Lemma same_live c c' i : same_but_hist (d_store c) (d_store c') -> live1 c i <-> live1 c' i.
Proof.
  intros [_ _ _ _ _ _ _ _ E]. unfold live1.
  assert (M : map v_idx (t_lru (d_store c')) = map v_idx (t_lru (d_store c))).
  { apply (f_equal (map (fun x => fst (fst x)))) in E. rewrite !map_map in E. exact E. }
  assert (A : forall l, (exists e, In e l /\ v_idx e = i) <-> In i (map v_idx l)).
  { intros l. rewrite in_map_iff. split; intros (e & X & Y); exists e; auto. }
  rewrite !A, M. reflexivity.
Qed.

Lemma do_toggles_ok gid is : forall c z, inv1 c -> gget (d_groups c) gid = Some z -> Forall (live1 c) is ->
  exists c', do_toggles c gid is = Ok c' /\ inv1 c' /\ same_but_hist (d_store c) (d_store c') /\ d_groups c' = gset (d_groups c) gid (zsymdiff z is).
Proof.
  induction is as [|i is IH]; intros c z I Hg Hl; cbn [do_toggles].
  { exists c. split; [reflexivity|]. split; [exact I|]. split; [apply same_refl|]. unfold zsymdiff. cbn. clear -Hg.
    induction (d_groups c) as [|[a s] g IH]; cbn in *; [discriminate|]. destruct (N.eqb_spec a gid); [congruence|]. now rewrite <- IH. }
  inversion Hl as [|? ? H1 H2]; subst. destruct (do_toggle_ok c gid i z I Hg H1) as (c1 & E1 & I1 & S1 & G1). rewrite E1. cbn [bind].
  destruct (IH c1 (ztoggle i z) I1) as (c2 & E2 & I2 & S2 & G2).
  - rewrite G1. apply gget_gset.
  - rewrite Forall_forall in *. intros x Hx. apply (same_live c c1 x S1). auto.
  - exists c2. split; [exact E2|]. split; [exact I2|]. split; [eapply same_trans; eauto|]. rewrite G2, G1, gset_gset. reflexivity.
Qed.

(** The order of toggling does not matter. *)
Lemma do_toggle_swap c gid i j z : inv1 c -> gget (d_groups c) gid = Some z -> live1 c i -> live1 c j ->
  (let* c := do_toggle c gid i in do_toggle c gid j) = (let* c := do_toggle c gid j in do_toggle c gid i).
Proof.
  intros I Hg Hi Hj. destruct (Z.eq_dec i j) as [->|N]; [reflexivity|].
  assert (F : forall i j, i <> j -> live1 c i -> live1 c j -> (let* c := do_toggle c gid i in do_toggle c gid j) =
    Ok (mk_code1 (set_lru (d_store c) (at_idx j (toggle_ve gid) (at_idx i (toggle_ve gid) (t_lru (d_store c))))) (gset (d_groups c) gid (ztoggle j (ztoggle i z))))).
  { clear Hi Hj i j N. intros i j N Hi Hj. destruct (do_toggle_ok c gid i z I Hg Hi) as (c1 & E1 & I1 & S1 & G1). rewrite E1. cbn [bind].
    assert (Hj1 : live1 c1 j) by (apply (same_live c c1 j S1); exact Hj).
    destruct (live1_look c1 j (ti_ids _ (in_t _ I1)) Hj1) as (e1 & L1 & _). unfold do_toggle in *. cbv zeta in *.
    destruct (live1_look c i (ti_ids _ (in_t _ I)) Hi) as (e0 & L0 & _). rewrite L0 in E1. cbn [bind] in E1. rewrite Hg in E1.
    injection E1 as <-. cbn [d_store d_groups set_lru t_lru] in *. rewrite L1. cbn [bind]. rewrite gget_gset, gset_gset. reflexivity. }
  rewrite (F i j N Hi Hj), (F j i (not_eq_sym N) Hj Hi). f_equal. f_equal; [apply (f_equal (set_lru (d_store c)))|apply (f_equal (gset (d_groups c) gid))].
  - unfold at_idx. rewrite !map_map. apply map_ext. intros e. assert (V : v_idx (toggle_ve gid e) = v_idx e) by reflexivity.
    destruct (v_idx e =? i) eqn:Ei, (v_idx e =? j) eqn:Ej; rewrite ?V, ?Ei, ?Ej; reflexivity.
  - pose proof (sy_sorted _ _ (in_g _ I) gid z Hg) as Hz. apply zsorted_ext; [now apply ztoggle_sorted, ztoggle_sorted..|]. intros x. rewrite !ztoggle_In.
    destruct (Z.eq_dec x i) as [Ei|Ei], (Z.eq_dec x j) as [Ej|Ej]; [congruence|subst x|subst x|]; tauto.
Qed.

Lemma do_toggles_perm gid is js : Permutation is js -> forall c z, inv1 c -> gget (d_groups c) gid = Some z -> Forall (live1 c) is ->
  do_toggles c gid is = do_toggles c gid js.
Proof.
  induction 1 as [|i is js P IH|i j is|is js ks P1 IH1 P2 IH2]; intros c z I Hg Hl.
  - reflexivity.
  - cbn [do_toggles]. inversion Hl as [|? ? H1 H2]; subst. destruct (do_toggle_ok c gid i z I Hg H1) as (c1 & E1 & I1 & S1 & G1). rewrite E1. cbn [bind].
    eapply IH; [exact I1|rewrite G1; apply gget_gset|]. rewrite Forall_forall in *. intros x Hx. apply (same_live c c1 x S1). auto.
  - inversion Hl as [|? ? H1 H2]; subst. inversion H2 as [|? ? H3 H4]; subst. cbn [do_toggles].
    pose proof (do_toggle_swap c gid j i z I Hg H1 H3) as E.
    destruct (do_toggle_ok c gid j z I Hg H1) as (c1 & E1 & I1 & S1 & G1). destruct (do_toggle_ok c gid i z I Hg H3) as (c2 & E2 & I2 & S2 & G2).
    rewrite E1, E2 in *. cbn [bind] in *. rewrite E. reflexivity.
  - rewrite (IH1 c z I Hg Hl). apply (IH2 c z I Hg). eapply Permutation_Forall; eauto.
Qed.

End Inv.
