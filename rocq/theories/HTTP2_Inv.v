(** * http2 codec: what a decoded message contains. *)
From Coq Require Import String List NArith ZArith Bool Lia ZifyN Permutation.
From Verif Require Import PyBase NBits HTTP2_Model HTTP2_Int HTTP2_Sim.
Import ListNotations.
Open Scope py_scope.

Definition header_dec (a b : header) : {a = b} + {a <> b} :=
  Bool.reflect_dec _ _ (header_eqb_spec a b).

(** ** Generic list facts *)

Lemma in_update_nth {A B} (g : A -> B) f i l x e :
  NoDup (map g l) -> nth_error l i = Some x -> In e (update_nth i f l) ->
  e = f x \/ (In e l /\ g e <> g x).
Proof.
  revert i. induction l as [|y l IH]; intros [|i]; simpl; try discriminate; intros Hn Hi Hin.
  - injection Hi as ->. inversion Hn; subst. destruct Hin as [<-|Hin]; [auto|].
    right. split; [auto|]. intros E. apply H1. rewrite <- E. now apply in_map.
  - inversion Hn; subst. destruct Hin as [<-|Hin].
    + right. split; [auto|]. intros E. apply H1. rewrite E. apply in_map. eapply nth_error_In; eauto.
    + destruct (IH i H2 Hi Hin) as [?|[? ?]]; auto.
Qed.

Lemma hdrs_update_nth i f t : (forall e, e_hdr (f e) = e_hdr e) -> hdrs (update_nth i f t) = hdrs t.
Proof.
  intros H. revert i. induction t as [|x t IH]; intros [|i]; simpl; auto.
  - now rewrite H.
  - now rewrite IH.
Qed.

Lemma sum_len_app a b : sum_len (a ++ b) = (sum_len a + sum_len b)%Z.
Proof. induction a; simpl; lia. Qed.

Lemma entry_len_pos h : (32 <= entry_len h)%Z.
Proof. unfold entry_len. lia. Qed.

Lemma sum_len_nonneg a : (0 <= sum_len a)%Z.
Proof. induction a as [|h a IH]; simpl; [lia|]. pose proof (entry_len_pos h). lia. Qed.

Lemma sum_len_perm a b : Permutation a b -> sum_len a = sum_len b.
Proof. induction 1; simpl; lia. Qed.

Lemma sum_len_incl a b : NoDup a -> incl a b -> (sum_len a <= sum_len b)%Z.
Proof.
  revert b. induction a as [|x a IH]; intros b Hn Hi; simpl.
  - apply sum_len_nonneg.
  - inversion Hn; subst. destruct (in_split x b) as (b1 & b2 & ->); [apply Hi; now left|].
    assert (H : (sum_len a <= sum_len (b1 ++ b2))%Z).
    { apply IH; auto. intros y Hy. specialize (Hi y (or_intror Hy)).
      apply in_app_or in Hi as [Hi|[<-|Hi]]; try (apply in_or_app; auto); contradiction. }
    rewrite sum_len_app in *. simpl. lia.
Qed.

(** ** Eviction *)

Lemma dec_evict_spec max size t : forall ts, exists pre,
  t = pre ++ fst (dec_evict max size t ts) /\
  (snd (dec_evict max size t ts) = ts - sum_len (hdrs pre))%Z /\
  (fst (dec_evict max size t ts) = [] \/ (snd (dec_evict max size t ts) + size <= max)%Z).
Proof.
  induction t as [|e t IH]; intros ts; simpl.
  - exists []. simpl. split; [auto|]. split; [lia|auto].
  - destruct (ts + size >? max)%Z eqn:E.
    + destruct (IH (ts - entry_len (e_hdr e))%Z) as (pre & E1 & E2 & E3).
      exists (e :: pre). simpl. split; [now f_equal|]. split; [lia|auto].
    + exists []. simpl. split; [auto|]. split; [lia|]. right.
      rewrite Z.gtb_ltb in E. apply Z.ltb_ge in E. lia.
Qed.

(** What appending does to a table: a suffix is kept, the entry is added if
    it fits. *)
Lemma append_spec max e d : d_size d = sum_len (hdrs (d_tbl d)) ->
  exists pre post, d_tbl d = pre ++ post /\
    let d' := append_decoded_header max e d in
    d_size d' = sum_len (hdrs (d_tbl d')) /\
    ((d_tbl d' = post ++ [e] /\ (sum_len (hdrs post) + entry_len (e_hdr e) <= max)%Z)
     \/ (d_tbl d' = [] /\ post = [] /\ (entry_len (e_hdr e) > max)%Z)).
Proof.
  intros Hs. unfold append_decoded_header.
  destruct (dec_evict_spec max (entry_len (e_hdr e)) (d_tbl d) (d_size d)) as (pre & E1 & E2 & E3).
  destruct (dec_evict max (entry_len (e_hdr e)) (d_tbl d) (d_size d)) as [post ts]. simpl in *.
  exists pre, post. split; [exact E1|].
  assert (Hts : ts = sum_len (hdrs post)).
  { rewrite E2, Hs, E1. unfold hdrs. rewrite map_app, sum_len_app. lia. }
  destruct (Z.leb_spec (ts + entry_len (e_hdr e)) max) as [H|H]; simpl.
  - split.
    + unfold hdrs in *. rewrite map_app, sum_len_app. simpl. lia.
    + left. split; [auto|lia].
  - destruct E3 as [->|E3]; [|lia]. split; [now rewrite Hts|]. right. simpl in Hts. subst ts.
    split; [auto|]. split; [auto|lia].
Qed.

(** ** The invariant while a message is processed

    [K]: headers kept from the previous reference set; [Out]: headers emitted
    so far. *)
Record Inv (K Out : list header) (d : decoder) : Prop := {
  inv_nodup : NoDup (hdrs (d_tbl d));
  inv_size : d_size d = sum_len (hdrs (d_tbl d));
  inv_emit : forall e, In e (d_tbl d) -> (e_emit e = true <-> In (e_hdr e) Out);
  inv_ref : forall e, In e (d_tbl d) -> (e_ref e = true <-> In (e_hdr e) K \/ In (e_hdr e) Out)
}.

Lemma NoDup_app_r {A} (a b : list A) : NoDup (a ++ b) -> NoDup b.
Proof. induction a; simpl; auto. inversion 1; auto. Qed.

Lemma NoDup_snoc {A} (a : list A) x : NoDup a -> ~ In x a -> NoDup (a ++ [x]).
Proof.
  intros Hn Hx. apply (Permutation_NoDup (l := x :: a)); [apply Permutation_cons_append|].
  now constructor.
Qed.

Lemma in_snoc {A} (x y : A) l : In x (l ++ [y]) <-> In x l \/ x = y.
Proof. rewrite in_app_iff. simpl. intuition. Qed.

Lemma dstep_inv max K Out h d : Inv K Out d -> Inv K (Out ++ [h]) (dstep max h d).
Proof.
  intros [Hn Hs He Hr]. unfold dstep. destruct (find_header h (d_tbl d)) as [i|] eqn:Ef.
  - apply find_header_some in Ef as (x & Hx & Ex).
    split; cbn [d_tbl d_size].
    + now rewrite hdrs_update_nth.
    + now rewrite hdrs_update_nth.
    + intros e Hin. destruct (in_update_nth e_hdr _ _ _ _ _ Hn Hx Hin) as [->|[Hin' Hne]].
      * cbn. rewrite in_snoc, Ex. tauto.
      * rewrite in_snoc, (He e Hin'). intuition congruence.
    + intros e Hin. destruct (in_update_nth e_hdr _ _ _ _ _ Hn Hx Hin) as [->|[Hin' Hne]].
      * cbn. rewrite in_snoc, Ex. tauto.
      * rewrite in_snoc, (Hr e Hin'). intuition congruence.
  - apply find_header_none in Ef. destruct (is_path h).
    + split; auto.
      * intros e Hin. rewrite in_snoc, (He e Hin). split; [auto|].
        intros [?| <-]; [auto|]. exfalso. apply Ef. now apply in_map.
      * intros e Hin. rewrite in_snoc, (Hr e Hin). split; [tauto|].
        intros [?|[?| <-]]; [auto|auto|]. exfalso. apply Ef. now apply in_map.
    + destruct (append_spec max (new_entry h true true) d Hs) as (pre & post & Ep & Hs' & Ht).
      set (d' := append_decoded_header max (new_entry h true true) d) in *.
      destruct Ht as [[Ht _]|(Ht & _ & _)].
      * assert (Hpost : forall e, In e post -> In e (d_tbl d)).
        { intros e Hin. rewrite Ep. apply in_or_app. auto. }
        split; [|exact Hs'|..]; rewrite Ht.
        -- unfold hdrs. rewrite map_app. simpl. apply NoDup_snoc.
           ++ apply (NoDup_app_r (map e_hdr pre)). rewrite <- map_app, <- Ep. exact Hn.
           ++ intros Hin. apply Ef. unfold hdrs. rewrite Ep, map_app. apply in_or_app. auto.
        -- intros e Hin. apply in_snoc in Hin as [Hin| ->].
           ++ apply Hpost in Hin. rewrite in_snoc, (He e Hin). split; [auto|].
              intros [?| <-]; [auto|]. exfalso. apply Ef. now apply in_map.
           ++ cbn. rewrite in_snoc. tauto.
        -- intros e Hin. apply in_snoc in Hin as [Hin| ->].
           ++ apply Hpost in Hin. rewrite in_snoc, (Hr e Hin). split; [tauto|].
              intros [?|[?| <-]]; [auto|auto|]. exfalso. apply Ef. now apply in_map.
           ++ cbn. rewrite in_snoc. tauto.
      * split; [|exact Hs'|..]; rewrite Ht; simpl; try tauto. constructor.
Qed.

Lemma dsteps_inv max K hs : forall Out d, Inv K Out d -> Inv K (Out ++ hs) (dsteps max hs d).
Proof.
  induction hs as [|h hs IH]; intros Out d H; simpl.
  - now rewrite app_nil_r.
  - replace (Out ++ h :: hs) with ((Out ++ [h]) ++ hs) by now rewrite <- app_assoc.
    apply IH. now apply dstep_inv.
Qed.

Lemma steps_inv max K d es d' : steps max K d es d' -> forall Out, Inv K Out d -> Inv K (Out ++ es) d'.
Proof.
  induction 1; intros Out HI.
  - now rewrite app_nil_r.
  - replace (Out ++ h :: es) with ((Out ++ [h]) ++ es) by now rewrite <- app_assoc.
    apply IHsteps. now apply dstep_inv.
Qed.

(** ** The re-encoding loop emits each kept header at most once, if it ends *)

Lemma dstep_missing max h d : ~ In h (hdrs (d_tbl d)) ->
  dstep max h d = if is_path h then d else append_decoded_header max (new_entry h true true) d.
Proof. intros H. unfold dstep. apply find_header_none in H. now rewrite H. Qed.

Lemma steps_path_missing max K d es d' : steps max K d es d' ->
  forall Out, Inv K Out d ->
  forall k, is_path k = true -> ~ In k (hdrs (d_tbl d)) -> ~ In k (hdrs (d_tbl d')).
Proof.
  induction 1; intros Out HI k Hk Hm; auto.
  apply (IHsteps (Out ++ [h])); auto; [now apply dstep_inv|].
  rewrite dstep_missing by auto. destruct (is_path h) eqn:Ep; auto.
  destruct (append_spec max (new_entry h true true) d (inv_size _ _ _ HI)) as (pre & post & E & _ & Ht).
  destruct Ht as [[-> _]|[-> _]]; [|auto].
  unfold hdrs. rewrite map_app. intros Hin. apply in_app_or in Hin as [Hin|[Hin|[]]].
  - apply Hm. unfold hdrs. rewrite E, map_app. apply in_or_app. auto.
  - cbn in Hin. congruence.
Qed.

Lemma steps_no_path max K d es d' : steps max K d es d' ->
  forall Out, Inv K Out d -> incl K (hdrs (d_tbl d')) -> forall h, In h es -> is_path h = false.
Proof.
  induction 1; intros Out HI HK k Hk; [destruct Hk|].
  destruct Hk as [<-|Hk].
  - destruct (is_path h) eqn:E; auto. exfalso.
    apply (steps_path_missing _ _ _ _ _ H1 (Out ++ [h])) in E; [apply E; now apply HK|now apply dstep_inv|].
    rewrite dstep_missing by auto. now rewrite E.
  - apply (IHsteps (Out ++ [h])); auto. now apply dstep_inv.
Qed.

Lemma dstep_size_le max h d : ~ In h (hdrs (d_tbl d)) -> is_path h = false ->
  d_size d = sum_len (hdrs (d_tbl d)) ->
  (d_size (dstep max h d) <= max)%Z \/ d_tbl (dstep max h d) = [].
Proof.
  intros Hm Hp Hs. rewrite dstep_missing, Hp by auto.
  destruct (append_spec max (new_entry h true true) d Hs) as (pre & post & E & Hs' & Ht).
  destruct Ht as [[Ht Hle]|[Ht _]]; [left|right; exact Ht].
  cbn zeta in Hs'. rewrite Hs', Ht. unfold hdrs in *. rewrite map_app, sum_len_app. simpl in *. lia.
Qed.

Lemma steps_size_le max K d es d' : steps max K d es d' -> es <> [] ->
  (forall h, In h es -> is_path h = false) -> forall Out, Inv K Out d ->
  (d_size d' <= max)%Z \/ d_tbl d' = [].
Proof.
  induction 1; intros Hne Hp Out HI; [congruence|].
  assert (HI' := dstep_inv max K Out h d HI).
  destruct es as [|h2 es].
  - inversion H1; subst. apply dstep_size_le; auto; [apply Hp; now left|apply HI].
  - eapply IHsteps; eauto; [discriminate|]. intros. apply Hp. now right.
Qed.

(** With room for all of [K] nothing that was re-encoded is evicted again. *)
Lemma steps_suffix max K d es d' : steps max K d es d' ->
  (sum_len K <= max)%Z -> (forall h, In h es -> is_path h = false) ->
  forall Out A B, Inv K Out d -> d_tbl d = A ++ B -> incl (hdrs B) K ->
  exists A' B', d_tbl d' = A' ++ B' /\ hdrs B' = hdrs B ++ es.
Proof.
  induction 1 as [d|d h es d' HhK Hm Hst IH]; intros HK Hp Out A B HI Et HB.
  - exists A, B. rewrite app_nil_r. auto.
  - assert (HI' := dstep_inv max K Out h d HI).
    assert (Hph : is_path h = false) by (apply Hp; now left).
    rewrite dstep_missing, Hph in * by auto.
    destruct (append_spec max (new_entry h true true) d (inv_size _ _ _ HI)) as (pre & post & E & Hs' & Ht).
    set (d1 := append_decoded_header max (new_entry h true true) d) in *.
    assert (HnB : NoDup (hdrs B ++ [h])).
    { apply NoDup_snoc.
      - apply (NoDup_app_r (hdrs A)). unfold hdrs. rewrite <- map_app, <- Et. apply HI.
      - intros Hin. apply Hm. unfold hdrs. rewrite Et, map_app. apply in_or_app. auto. }
    assert (HBh : (sum_len (hdrs B) + entry_len h <= max)%Z).
    { assert (X : (sum_len (hdrs B ++ [h]) <= sum_len K)%Z).
      { apply sum_len_incl; auto. intros x Hx. apply in_snoc in Hx as [Hx| ->]; auto. }
      rewrite sum_len_app in X. simpl in X. lia. }
    (* the kept suffix [post] contains all of [B] *)
    assert (Hpost : exists A2, d_tbl d1 = A2 ++ B ++ [new_entry h true true]).
    { destruct Ht as [[Ht Hle]|(Ht & -> & Hbig)].
      2: { exfalso. pose proof (sum_len_nonneg (hdrs B)). cbn in Hbig. lia. }
      (* eviction stops as soon as there is room; compare lengths *)
      unfold d1, append_decoded_header in *. clear IH Hst HI' Hs'.
      assert (Hev : forall A ts, ts = sum_len (hdrs (A ++ B)) ->
         exists A2, fst (dec_evict max (entry_len h) (A ++ B) ts) = A2 ++ B).
      { clear -HBh. induction A as [|a A IHA]; intros ts Hts.
        - exists []. simpl app in *. destruct B as [|b B]; [reflexivity|].
          cbn [dec_evict]. destruct (ts + entry_len h >? max)%Z eqn:Eg; [|reflexivity].
          rewrite Z.gtb_ltb in Eg. apply Z.ltb_lt in Eg. lia.
        - cbn [app dec_evict]. destruct (ts + entry_len h >? max)%Z.
          + apply IHA. rewrite Hts. simpl. lia.
          + exists (a :: A). reflexivity. }
      destruct (Hev A (d_size d)) as (A2 & EA2); [rewrite (inv_size _ _ _ HI), Et; reflexivity|].
      cbn [e_hdr new_entry] in *. rewrite Et in *.
      destruct (dec_evict max (entry_len h) (A ++ B) (d_size d)) as [t ts] eqn:Eev.
      cbn [fst] in EA2. exists A2.
      destruct (ts + entry_len h <=? max)%Z eqn:El.
      - cbn [d_tbl]. rewrite EA2, <- app_assoc. reflexivity.
      - exfalso. cbn [d_tbl] in Ht. cbn [d_tbl] in Ht.
        pose proof (dec_evict_spec max (entry_len h) (A ++ B) (d_size d)) as (p2 & E1 & E2 & E3).
        rewrite Eev in *. cbn [fst snd] in *. apply Z.leb_gt in El.
        destruct E3 as [E3|E3]; [|lia]. subst t. symmetry in E3.
        destruct post; discriminate. }
    destruct Hpost as (A2 & EA2).
    destruct (IH HK) with (Out := Out ++ [h]) (A := A2) (B := B ++ [new_entry h true true]) as (A' & B' & E1 & E2); auto.
    { intros x Hx. apply Hp. now right. }
    { unfold hdrs. rewrite map_app. intros x Hx. apply in_app_or in Hx as [Hx|[<-|[]]]; auto. }
    exists A', B'. split; [exact E1|]. rewrite E2. unfold hdrs. rewrite map_app, <- app_assoc. reflexivity.
Qed.

Lemma steps_nodup max K d es d' Out : steps max K d es d' -> NoDup K -> Inv K Out d ->
  incl K (hdrs (d_tbl d')) -> NoDup es /\ incl es K.
Proof.
  intros Hst HnK HI HK.
  assert (Hincl : incl es K).
  { clear -Hst. induction Hst; intros x Hx; [destruct Hx|]. destruct Hx as [<-|Hx]; auto. }
  split; [|exact Hincl].
  destruct es as [|e0 es0] eqn:Ees; [constructor|]. rewrite <- Ees in *.
  assert (Hp := steps_no_path _ _ _ _ _ Hst Out HI HK).
  assert (HI' := steps_inv _ _ _ _ _ Hst Out HI).
  assert (HsK : (sum_len K <= max)%Z).
  { destruct (steps_size_le _ _ _ _ _ Hst ltac:(subst; discriminate) Hp Out HI) as [H|H].
    - rewrite (inv_size _ _ _ HI') in H. pose proof (sum_len_incl _ _ HnK HK). lia.
    - exfalso. assert (Hin : In e0 K) by (apply Hincl; subst es; now left).
      apply HK in Hin. rewrite H in Hin. destruct Hin. }
  destruct (steps_suffix _ _ _ _ _ Hst HsK Hp Out (d_tbl d) [] HI) as (A' & B' & E1 & E2).
  { now rewrite app_nil_r. }
  { intros x []. }
  pose proof (inv_nodup _ _ _ HI') as Hn. rewrite E1 in Hn. unfold hdrs in Hn. rewrite map_app in Hn.
  apply NoDup_app_r in Hn. fold (hdrs B') in Hn. rewrite E2 in Hn. exact Hn.
Qed.

(** ** The difference with the previous reference set *)

Definition reffed (t : list entry) (h : header) : Prop := exists e, In e t /\ e_hdr e = h /\ e_ref e = true.

Lemma nodup_hdr_unique t e1 e2 : NoDup (hdrs t) -> In e1 t -> In e2 t -> e_hdr e1 = e_hdr e2 -> e1 = e2.
Proof.
  induction t as [|x t IH]; simpl; intros Hn H1 H2 E; [tauto|].
  inversion Hn; subst. destruct H1 as [->|H1], H2 as [->|H2]; auto.
  - exfalso. apply H3. rewrite E. now apply in_map.
  - exfalso. apply H3. rewrite <- E. now apply in_map.
Qed.

Lemma reffed_view t1 t2 h : map view t1 = map view t2 -> reffed t1 h -> reffed t2 h.
Proof.
  intros E (e & Hin & Eh & Er).
  assert (H : In (h, true) (map view t2)).
  { rewrite <- E. apply in_map_iff. exists e. split; [|auto]. unfold view. congruence. }
  apply in_map_iff in H as (e' & Ev & Hin'). unfold view in Ev. injection Ev as E1 E2.
  exists e'. auto.
Qed.

Lemma reffed_view_iff t1 t2 h : map view t1 = map view t2 -> (reffed t1 h <-> reffed t2 h).
Proof. intros E. split; apply reffed_view; auto. Qed.

Lemma set_emit_view b t : map view (map (set_emit b) t) = map view t.
Proof. rewrite map_map. apply map_ext. reflexivity. Qed.

Lemma update_view i b t : map view (update_nth i (set_emit b) t) = map view t.
Proof.
  revert i. induction t as [|x t IH]; intros [|i]; simpl; auto. now rewrite IH.
Qed.

Lemma diff_loop_spec hs : forall P t kept rem,
  NoDup (hdrs t) ->
  (forall e, In e t -> (e_emit e = true <-> e_ref e = true /\ In (e_hdr e) P)) ->
  NoDup kept -> (forall x, In x kept <-> In x P /\ reffed t x) ->
  Permutation (kept ++ rem) P ->
  let '(t', kept', rem') := diff_loop hs t kept rem in
  map view t' = map view t /\
  (forall e, In e t' -> (e_emit e = true <-> e_ref e = true /\ In (e_hdr e) (P ++ hs))) /\
  NoDup kept' /\ (forall x, In x kept' <-> In x (P ++ hs) /\ reffed t x) /\
  Permutation (kept' ++ rem') (P ++ hs).
Proof.
  induction hs as [|h hs IH]; intros P t kept rem Hn Hm Hnk Hk Hperm; simpl.
  - rewrite app_nil_r. auto 10.
  - replace (P ++ h :: hs) with ((P ++ [h]) ++ hs) by now rewrite <- app_assoc.
    (* the case where h goes to [rem] *)
    assert (Hrem : ~ reffed t h \/ (In h kept) ->
      let '(t', kept', rem') := diff_loop hs t kept (rem ++ [h]) in
      map view t' = map view t /\
      (forall e, In e t' -> (e_emit e = true <-> e_ref e = true /\ In (e_hdr e) ((P ++ [h]) ++ hs))) /\
      NoDup kept' /\ (forall x, In x kept' <-> In x ((P ++ [h]) ++ hs) /\ reffed t x) /\
      Permutation (kept' ++ rem') ((P ++ [h]) ++ hs)).
    { intros Hh. apply IH; auto.
      - intros e Hin. rewrite in_snoc, (Hm e Hin). split; [tauto|].
        intros [Hr [Hx|Hx]]; [auto|]. split; [auto|]. destruct Hh as [Hh|Hh].
        + exfalso. apply Hh. exists e. auto.
        + rewrite Hx. apply Hk. exact Hh.
      - intros x. rewrite Hk, in_snoc. split; [tauto|].
        intros [[Hx| ->] Hr]; [auto|]. destruct Hh as [Hh|Hh]; [contradiction|]. apply Hk in Hh. tauto.
      - rewrite app_assoc. apply Permutation_app; auto. }
    destruct (find_header h t) as [i|] eqn:Ef.
    + apply find_header_some in Ef as (e & En & Eh). rewrite En.
      pose proof (nth_error_In _ _ En) as Hin.
      destruct (e_ref e) eqn:Er; [destruct (e_emit e) eqn:Ee|].
      * apply Hrem. right. apply Hk. apply (Hm e Hin) in Ee. rewrite Eh in Ee.
        split; [tauto|]. exists e. auto.
      * assert (HhP : ~ In h P).
        { intros Hh. assert (X : e_emit e = true) by (apply (Hm e Hin); split; [auto|now rewrite Eh]). congruence. }
        assert (Href : reffed t h) by (exists e; auto).
        specialize (IH (P ++ [h]) (update_nth i (set_emit true) t) (kept ++ [h]) rem).
        destruct (diff_loop hs (update_nth i (set_emit true) t) (kept ++ [h]) rem) as [[t' kept'] rem'].
        rewrite update_view in IH. destruct IH as (I1 & I2 & I3 & I4 & I5).
        -- now rewrite hdrs_update_nth.
        -- intros e' Hin'. destruct (in_update_nth e_hdr _ _ _ _ _ Hn En Hin') as [->|[Hin'' Hne]].
           ++ cbn. rewrite in_snoc, Eh, Er. tauto.
           ++ rewrite in_snoc, (Hm e' Hin''). rewrite Eh in Hne. intuition congruence.
        -- apply NoDup_snoc; auto. rewrite Hk. tauto.
        -- intros x. rewrite in_snoc, in_snoc, Hk, (reffed_view_iff _ _ x (update_view i true t)).
           split.
           ++ intros [[Hx Hr]| ->]; auto.
           ++ intros [[Hx| ->] Hr]; auto.
        -- rewrite <- app_assoc. simpl. apply Permutation_trans with (h :: kept ++ rem).
           ++ symmetry. apply Permutation_middle.
           ++ apply Permutation_trans with (h :: P); [now constructor|]. apply Permutation_cons_append.
        -- split; [exact I1|]. split; [exact I2|]. split; [exact I3|]. split; [|exact I5].
           intros x. rewrite I4, (reffed_view_iff _ _ x (update_view i true t)). reflexivity.
      * apply Hrem. left. intros (e' & Hin' & Eh' & Er').
        assert (e' = e) by (eapply nodup_hdr_unique; eauto; congruence). congruence.
    + apply Hrem. left. intros (e' & Hin' & Eh' & Er').
      apply find_header_none in Ef. apply Ef. rewrite <- Eh'. now apply in_map.
Qed.

(** ** The removals *)

Lemma removed_from_S i t : removed_from (S i) t = map S (removed_from i t).
Proof.
  revert i. induction t as [|e t IH]; intros i; simpl; auto.
  destruct (e_ref e && negb (e_emit e)); simpl; now rewrite IH.
Qed.

Definition dremove (ix : list nat) (t : list entry) : list entry :=
  fold_left (fun t i => update_nth i (set_both false false) t) ix t.

Lemma dremove_S ix x t : dremove (map S ix) (x :: t) = x :: dremove ix t.
Proof. revert x t. induction ix; intros; simpl; auto. Qed.

(** Each entry of the result comes from a marked entry of the encoder. *)
Lemma dremove_spec t1 : forall t2, map view t1 = map view t2 ->
  forall e', In e' (dremove (removed_from 0 t1) t2) ->
  exists m e, In m t1 /\ In e t2 /\ view m = view e /\
    e' = if e_ref m && negb (e_emit m) then set_both false false e else e.
Proof.
  induction t1 as [|m t1 IH]; intros [|e t2] Hv e' Hin; try discriminate.
  - destruct Hin.
  - simpl in Hv. injection Hv as Hva Hvb Hv2.
    assert (E : dremove (removed_from 0 (m :: t1)) (e :: t2) =
                (if e_ref m && negb (e_emit m) then set_both false false e else e)
                :: dremove (removed_from 0 t1) t2).
    { cbn [removed_from]. rewrite removed_from_S.
      destruct (e_ref m && negb (e_emit m)); [cbn [dremove fold_left update_nth]|]; apply dremove_S. }
    rewrite E in Hin. destruct Hin as [<-|Hin].
    + exists m, e. simpl. unfold view. repeat split; auto. congruence.
    + destruct (IH t2 Hv2 e' Hin) as (m' & x & A & B & C & D). exists m', x. simpl. auto.
Qed.

Lemma hdrs_dremove ix : forall t, hdrs (dremove ix t) = hdrs t.
Proof. induction ix; intros t; simpl; auto. rewrite IHix. now apply hdrs_update_nth. Qed.

Lemma encode_removed_sim max ix : forall c d c' bs,
  Rel c d -> NoDup ix ->
  (forall i, In i ix -> exists e, nth_error (c_tbl c) i = Some e /\ e_ref e = true) ->
  encode_removed ix c = Ok (c', bs) ->
  let d' := mkDec (dremove ix (d_tbl d)) (d_size d) in
  Rel c' d' /\
  forall acc rest, dec max d acc (bs ++ rest) = dec max d' acc rest.
Proof.
  induction ix as [|i ix IH]; intros c d c' bs HR Hn Hv E; simpl in E.
  - injection E as <- <-. simpl. destruct d. split; [exact HR|reflexivity].
  - inversion Hn; subst.
    destruct (Hv i (or_introl eq_refl)) as (e & En & Er).
    destruct (write_integer 128 7 (N.of_nat i)) as [b|] eqn:Ew; [|discriminate]. cbn [bind] in E.
    set (c1 := mkEnc (update_nth i (set_both false false) (c_tbl c)) (c_size c)) in *.
    destruct (encode_removed ix c1) as [[c2 b2]|] eqn:Er2; [|discriminate]. cbn [bind] in E.
    injection E as <- <-.
    set (d1 := mkDec (update_nth i (set_both false false) (d_tbl d)) (d_size d)).
    assert (HR1 : Rel c1 d1).
    { destruct HR as [Hvw Hs]. split; [|exact Hs]. cbn.
      rewrite !(update_nth_map view _ (fun v => (fst v, false))) by reflexivity. now rewrite Hvw. }
    destruct (IH c1 d1 c2 b2 HR1 H2) as [HR2 D2]; auto.
    { intros j Hj. destruct (Hv j (or_intror Hj)) as (e' & En' & Er').
      assert (Hij : i <> j) by congruence.
      exists e'. split; [|exact Er']. cbn.
      clear -En' Hij. revert i j Hij En'. induction (c_tbl c) as [|x l IHl]; intros [|i] [|j] Hij En'; simpl in *; try congruence; auto. }
    split; [exact HR2|]. intros acc rest. rewrite <- app_assoc.
    assert (Hd : exists e', nth_error (d_tbl d) i = Some e' /\ e_ref e' = true).
    { destruct HR as [Hvw _]. assert (X : nth_error (map view (d_tbl d)) i = Some (view e)).
      { rewrite <- Hvw. now apply map_nth_error. }
      rewrite nth_error_map in X. destruct (nth_error (d_tbl d) i) as [e'|]; [|discriminate].
      exists e'. simpl in X. unfold view in X. split; congruence. }
    destruct Hd as (e' & En' & Er').
    rewrite (dec_toggle max d acc i e' b _ En' Ew), Er', app_nil_r.
    rewrite (update_nth_ext flip (set_both false false) i _ e' En') by (unfold flip; now rewrite Er').
    apply D2.
Qed.

Lemma removed_from_valid t : forall i k, In i (removed_from k t) ->
  exists e, nth_error t (i - k) = Some e /\ e_ref e = true /\ (k <= i)%nat.
Proof.
  induction t as [|x t IH]; intros i k Hin; simpl in Hin; [destruct Hin|].
  assert (H : In i (removed_from (S k) t) -> exists e, nth_error (x :: t) (i - k) = Some e /\ e_ref e = true /\ (k <= i)%nat).
  { intros H. destruct (IH i (S k) H) as (e & E1 & E2 & E3). exists e.
    replace (i - k)%nat with (S (i - S k)) by lia. simpl. repeat split; auto. lia. }
  destruct (e_ref x && negb (e_emit x)) eqn:E; [|auto].
  destruct Hin as [<-|Hin]; [|auto]. exists x. rewrite Nat.sub_diag. simpl.
  apply andb_prop in E. repeat split; (tauto || lia).
Qed.

Lemma removed_from_nodup t : forall k, NoDup (removed_from k t).
Proof.
  induction t as [|x t IH]; intros k; simpl; [constructor|].
  destruct (e_ref x && negb (e_emit x)); [|auto].
  constructor; [|auto]. intros H. apply removed_from_valid in H as (_ & _ & _ & H). lia.
Qed.

Lemma encode_removed_total ix : forall c, exists c' bs, encode_removed ix c = Ok (c', bs).
Proof.
  induction ix as [|i ix IH]; intros c; simpl; [eauto|].
  destruct (write_toggle (N.of_nat i)) as (b & bs & -> & _). cbn [bind].
  destruct (IH (mkEnc (update_nth i (set_both false false) (c_tbl c)) (c_size c))) as (c' & bs' & ->).
  cbn [bind]. eauto.
Qed.

(** ** One message *)

(** Table invariant between messages. *)
Definition good (d : decoder) : Prop :=
  NoDup (hdrs (d_tbl d)) /\ d_size d = sum_len (hdrs (d_tbl d)).

(** The state of both sides when the re-encoding loop starts. *)
(** The frame body, before the frame header is packed. *)
Definition encode_body (fuel : nat) (max : Z) (hs : list header) (c : encoder) : res (encoder * str) :=
  let '(removed, kept, remaining, t) := compute_diff hs (c_tbl c) in
  let c := mkEnc (update_encoder_table t) (c_size c) in
  let* (c, b1) := encode_removed removed c in
  let* (c, b2) := encode_remaining max remaining c in
  let* (c, b3) := reencode_loop fuel max kept true c in
  Ok (c, b1 ++ b2 ++ b3).

Lemma encode_headers_body fuel max hs c : encode_headers fuel max hs c =
  let* (c, b) := encode_body fuel max hs c in let* f := frame_header (lenN b) in Ok (c, f ++ b).
Proof.
  unfold encode_headers, encode_body. destruct (compute_diff hs (c_tbl c)) as [[[removed kept] remaining] t].
  destruct (encode_removed _ _) as [[c1 b1]|]; [|reflexivity]. cbn [bind].
  destruct (encode_remaining _ _ _) as [[c2 b2]|]; [|reflexivity]. cbn [bind].
  destruct (reencode_loop _ _ _ _ _) as [[c3 b3]|]; reflexivity.
Qed.

Lemma prefix_phase max hs c d :
  Rel c d -> good d ->
  exists kept remaining c1 d1 b12 ,
    (forall fuel,
       encode_body fuel max hs c =
       let* (c, b3) := reencode_loop fuel max kept true c1 in
       Ok (c, b12 ++ b3)) /\
    Rel c1 d1 /\ Inv kept remaining d1 /\ NoDup kept /\
    Permutation (kept ++ remaining) hs /\
    (forall x, In x kept <-> In x hs /\ reffed (c_tbl c) x) /\
    (forall rest, dec max (mkDec (map (set_emit false) (d_tbl d)) (d_size d)) [] (b12 ++ rest)
                  = dec max d1 remaining rest).
Proof.
  intros HR [Hn Hs]. pose proof HR as [Hv Hsz].
  assert (Hhd : hdrs (c_tbl c) = hdrs (d_tbl d)) by now apply view_hdrs.
  unfold encode_body, compute_diff.
  pose proof (diff_loop_spec hs [] (map (set_emit false) (c_tbl c)) [] []) as HD.
  destruct (diff_loop hs (map (set_emit false) (c_tbl c)) [] []) as [[t1 kept] remaining] eqn:Ed.
  destruct HD as (D1 & D2 & D3 & D4 & D5).
  { rewrite (view_hdrs _ _ (set_emit_view false (c_tbl c))), Hhd. exact Hn. }
  { intros e Hin. apply in_map_iff in Hin as (x & <- & _). cbn. split; [discriminate|tauto]. }
  { constructor. }
  { simpl. tauto. }
  { constructor. }
  simpl in D2, D4, D5.
  assert (Hv1 : map view t1 = map view (c_tbl c)) by (now rewrite D1, set_emit_view).
  set (c0 := mkEnc (update_encoder_table (map unmark t1)) (c_size c)).
  set (d0 := mkDec (map (set_emit false) (d_tbl d)) (d_size d)).
  assert (HR0 : Rel c0 d0).
  { split; [|exact Hsz]. cbn. rewrite set_emit_view, <- Hv, <- Hv1.
    unfold update_encoder_table. rewrite !map_map. apply map_ext. intros e. unfold view, update_entry, unmark.
    destruct (e_ref e) eqn:E; cbn; rewrite ?E; reflexivity. }
  destruct (encode_removed_total (removed_from 0 t1) c0) as (c0' & b1 & E1).
  destruct (encode_removed_sim max (removed_from 0 t1) c0 d0 c0' b1 HR0 (removed_from_nodup t1 0)) as [HR1 Dc1]; auto.
  { intros i Hi. apply removed_from_valid in Hi as (e & En & Er & _). rewrite Nat.sub_0_r in En.
    exists (update_entry (unmark e)). split.
    - cbn. unfold update_encoder_table. rewrite map_map. now apply map_nth_error with (f := fun x => update_entry (unmark x)).
    - unfold update_entry, unmark. rewrite Er. cbn. exact Er. }
  set (d1 := mkDec (dremove (removed_from 0 t1) (d_tbl d0)) (d_size d0)) in *.
  destruct (encode_remaining_total max remaining c0') as (c1 & b2 & E2).
  destruct (encode_remaining_sim max remaining c0' d1 c1 b2 HR1 E2) as [HR2 Dc2].
  exists kept, remaining, c1, (dsteps max remaining d1), (b1 ++ b2).
  split.
  { intros fuel. fold c0. rewrite E1. cbn [bind]. rewrite E2. cbn [bind].
    destruct (reencode_loop fuel max kept true c1) as [[c3 b3]|]; cbn [bind]; [|reflexivity].
    rewrite <- app_assoc. reflexivity. }
  split; [exact HR2|].
  assert (HI1 : Inv kept [] d1).
  { split.
    - cbn. rewrite hdrs_dremove. rewrite (view_hdrs _ _ (set_emit_view false (d_tbl d))). exact Hn.
    - cbn. rewrite hdrs_dremove. rewrite (view_hdrs _ _ (set_emit_view false (d_tbl d))). exact Hs.
    - intros e Hin. cbn in Hin. apply dremove_spec in Hin.
      + destruct Hin as (m & x & Hm & Hx & Evw & ->). apply in_map_iff in Hx as (y & <- & _).
        destruct (e_ref m && negb (e_emit m)); cbn; split; (discriminate || tauto).
      + now rewrite Hv1, set_emit_view.
    - intros e Hin. cbn in Hin. apply dremove_spec in Hin.
      + destruct Hin as (m & x & Hm & Hx & Evw & ->).
        assert (Eh : e_hdr m = e_hdr x) by (unfold view in Evw; congruence).
        assert (Er : e_ref m = e_ref x) by (unfold view in Evw; congruence).
        pose proof (D2 m Hm) as Hmm.
        destruct (e_ref m) eqn:Erm; cbn [andb].
        * destruct (e_emit m) eqn:Eem; cbn [negb].
          -- rewrite <- Er. split; [|auto]. intros _. left. rewrite <- Eh. apply D4.
             split; [now apply Hmm|]. eapply reffed_view; [exact D1|]. exists m. auto.
          -- cbn. split; [discriminate|]. intros [Hk|[]]. rewrite <- Eh in Hk. apply D4 in Hk as [Hk _].
             assert (false = true) by (apply Hmm; auto). discriminate.
        * rewrite <- Er. split; [discriminate|]. intros [Hk|[]]. exfalso.
          rewrite <- Eh in Hk. apply D4 in Hk as [_ Hk].
          apply (reffed_view _ t1) in Hk; [|now rewrite Hv1, set_emit_view].
          destruct Hk as (m' & Hm' & Eh' & Er').
          assert (m' = m). { apply (nodup_hdr_unique t1); auto. rewrite (view_hdrs _ _ Hv1), Hhd. exact Hn. }
          congruence.
      + now rewrite Hv1, set_emit_view. }
  split; [exact (dsteps_inv max kept remaining [] d1 HI1)|].
  split; [exact D3|]. split; [exact D5|]. split.
  { intros x. rewrite D4, (reffed_view_iff _ _ x (set_emit_view false (c_tbl c))). reflexivity. }
  intros rest. rewrite <- app_assoc, Dc1, Dc2. reflexivity.
Qed.

Lemma frame_header_len n f : frame_header n = Ok f -> length f = 8%nat.
Proof.
  unfold frame_header, pack_H. destruct (n <? 65536)%N; cbn [bind]; intros H; [|discriminate].
  now injection H as <-.
Qed.

Definition pending (d : decoder) : list header :=
  map e_hdr (filter (fun e => e_ref e && negb (e_emit e)) (d_tbl d)).

Lemma NoDup_map_filter {A B} (g : A -> B) p l : NoDup (map g l) -> NoDup (map g (filter p l)).
Proof.
  induction l as [|x l IH]; simpl; auto. intros H; inversion H; subst.
  destruct (p x); simpl; auto. constructor; auto.
  intros Hin. apply H2. apply in_map_iff in Hin as (y & <- & Hy). apply filter_In in Hy. now apply in_map.
Qed.

(** What comes out of one message, for any header list. *)
Theorem body_sim fuel max hs c d c' body hdr8 : length hdr8 = 8%nat ->
  Rel c d -> good d ->
  encode_body fuel max hs c = Ok (c', body) ->
  exists d' out, decode_headers max d (hdr8 ++ body) = (d', Ok out) /\
    Rel c' d' /\ good d' /\
    (forall x, In x out <-> In x hs) /\
    (NoDup hs -> Permutation out hs) /\
    (forall e, In e (d_tbl d') -> (e_ref e = true <-> In (e_hdr e) hs)).
Proof.
  intros Hh8 HR HG E.
  destruct (prefix_phase max hs c d HR HG) as (kept & remaining & c1 & d1 & b12 & EE & HR1 & HI1 & HnK & Hperm & HK & D1).
  rewrite EE in E.
  destruct (reencode_loop fuel max kept true c1) as [[c2 b3]|] eqn:El; [|discriminate]. cbn [bind] in E.
  injection E as <- <-.
  destruct (reencode_loop_sim _ _ _ _ _ _ _ HR1 El) as (d2 & es & HR2 & Hst & D2 & Hincl).
  assert (HI2 := steps_inv _ _ _ _ _ Hst _ HI1).
  destruct (steps_nodup _ _ _ _ _ _ Hst HnK HI1 Hincl) as [Hnes HesK].
  assert (Hsub : forall x, In x (remaining ++ es) -> In x hs).
  { intros x Hx. apply (Permutation_in _ Hperm). apply in_app_or in Hx as [Hx|Hx]; apply in_or_app; auto. }
  assert (HKhs : forall x, In x kept -> In x hs).
  { intros x Hx. apply (Permutation_in _ Hperm). apply in_or_app; auto. }
  assert (Hpend : forall x, In x (pending d2) <-> In x kept /\ ~ In x (remaining ++ es)).
  { intros x. unfold pending. rewrite in_map_iff. split.
    - intros (e & <- & He). apply filter_In in He as [He Hb]. apply andb_prop in Hb as [Hb1 Hb2].
      apply (inv_ref _ _ _ HI2 e He) in Hb1. apply negb_true_iff in Hb2.
      assert (Hno : ~ In (e_hdr e) (remaining ++ es)).
      { intros Hc. apply (inv_emit _ _ _ HI2 e He) in Hc. congruence. }
      tauto.
    - intros [Hx Hno]. pose proof (Hincl x Hx) as Hin. apply in_map_iff in Hin as (e & <- & He).
      exists e. split; [auto|]. apply filter_In. split; [auto|]. apply andb_true_intro. split.
      + apply (inv_ref _ _ _ HI2 e He). auto.
      + apply negb_true_iff. destruct (e_emit e) eqn:Ee; auto. apply (inv_emit _ _ _ HI2 e He) in Ee. contradiction. }
  exists d2, ((remaining ++ es) ++ pending d2). split.
  { unfold decode_headers. rewrite skipn_app, (skipn_all2 hdr8) by (rewrite Hh8; auto).
    rewrite Hh8, Nat.sub_diag. cbn [skipn app].
    change (decode_loop (length (b12 ++ b3)) max (mkDec (map (set_emit false) (d_tbl d)) (d_size d)) [] (b12 ++ b3))
      with (dec max (mkDec (map (set_emit false) (d_tbl d)) (d_size d)) [] (b12 ++ b3)).
    rewrite <- (app_nil_r (b12 ++ b3)), <- app_assoc, D1, D2. reflexivity. }
  split; [exact HR2|].
  split; [split; [exact (inv_nodup _ _ _ HI2)|exact (inv_size _ _ _ HI2)]|].
  assert (Hset : forall x, In x ((remaining ++ es) ++ pending d2) <-> In x hs).
  { intros x. rewrite in_app_iff, Hpend. split.
    - intros [Hx|[Hx _]]; auto.
    - intros Hx. apply (Permutation_in _ (Permutation_sym Hperm)) in Hx. apply in_app_or in Hx as [Hx|Hx].
      + destruct (in_dec header_dec x (remaining ++ es)); auto.
      + left. apply in_or_app. auto. }
  split; [exact Hset|]. split.
  - intros Hnd. apply NoDup_Permutation; auto.
    assert (Hkr : NoDup (kept ++ remaining)) by (apply (Permutation_NoDup (Permutation_sym Hperm)); auto).
    assert (Hdisj : forall x, In x kept -> ~ In x remaining).
    { intros x Hx Hx'. clear -Hkr Hx Hx'. induction kept as [|k kept IH]; [destruct Hx|].
      simpl in Hkr. inversion Hkr; subst. destruct Hx as [->|Hx]; auto. apply H1. apply in_or_app; auto. }
    assert (NoDup (remaining ++ es)).
    { apply NoDup_app_r in Hkr. clear -Hkr Hnes Hdisj HesK. induction remaining as [|r remaining IH]; simpl; auto.
      inversion Hkr; subst. constructor.
      - intros Hin. apply in_app_or in Hin as [Hin|Hin]; [contradiction|].
        apply (Hdisj r); [auto|now left].
      - apply IH; auto. intros x Hx Hx'. apply (Hdisj x Hx). now right. }
    assert (NoDup (pending d2)) by (apply NoDup_map_filter, (inv_nodup _ _ _ HI2)).
    clear -H H0 Hpend. assert (Hd : forall x, In x (remaining ++ es) -> ~ In x (pending d2)) by (intros x Hx Hp; apply Hpend in Hp; tauto).
    clear Hpend. induction (remaining ++ es) as [|r l IH]; simpl; auto. inversion H; subst. constructor.
    + intros Hin. apply in_app_or in Hin as [Hin|Hin]; [contradiction|]. apply (Hd r); [now left|auto].
    + apply IH; auto. intros x Hx. apply Hd. now right.
  - intros e He. rewrite (inv_ref _ _ _ HI2 e He). split.
    + intros [Hx|Hx]; auto.
    + intros Hx. apply (Permutation_in _ (Permutation_sym Hperm)) in Hx. apply in_app_or in Hx as [Hx|Hx]; auto.
      right. apply in_or_app; auto.
Qed.

Theorem message_sim fuel max hs c d c' frame :
  Rel c d -> good d ->
  encode_headers fuel max hs c = Ok (c', frame) ->
  exists d' out, decode_headers max d frame = (d', Ok out) /\
    Rel c' d' /\ good d' /\
    (forall x, In x out <-> In x hs) /\
    (NoDup hs -> Permutation out hs) /\
    (forall e, In e (d_tbl d') -> (e_ref e = true <-> In (e_hdr e) hs)).
Proof.
  intros HR HG E. rewrite encode_headers_body in E.
  destruct (encode_body fuel max hs c) as [[c2 b]|] eqn:Eb; [|discriminate]. cbn [bind] in E.
  destruct (frame_header (lenN b)) as [f|] eqn:Ef; [|discriminate]. cbn [bind] in E. injection E as <- <-.
  exact (body_sim fuel max hs c d c2 b f (frame_header_len _ _ Ef) HR HG Eb).
Qed.
