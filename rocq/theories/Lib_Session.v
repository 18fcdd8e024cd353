(** * Proofs about lib/processors.py sessions and lib/stream.py totals. *)
From Coq Require Import String List NArith ZArith Bool Lia Permutation.
From Verif Require Import PyBase PyStr Lib_Model Lib_Spec Lib_Proofs.
Import ListNotations.
Open Scope N_scope.
Open Scope py_scope.

Lemma Forall2_length {A B} (R : A -> B -> Prop) l l' : Forall2 R l l' -> length l = length l'.
Proof. induction 1; cbn; auto. Qed.

Section Sessions.
  Variable St : Type.
  Variable construct : str -> bool -> list str -> res St.
  Variable p_compress : str -> St -> hdict -> str -> res (St * str).
  Variable p_decompress : str -> St -> str -> res (St * option hdict).
  Variable ord : list (str * str) -> list (str * str).
  Hypothesis Hord : is_order ord.

  Notation proc := (proc St).
  Notation process_one := (process_one St p_compress p_decompress ord).
  Notation process_message := (process_message St p_compress p_decompress ord).
  Notation session_loop := (session_loop St p_compress p_decompress ord).
  Notation get_processors := (get_processors St construct).
  Notation process_session := (process_session St construct p_compress p_decompress ord).

  Lemma process_one_name debug hdrs host p p' sz bad :
    process_one debug hdrs host p = Ok (p', sz, bad) -> p_name _ p' = p_name _ p /\ p_mod _ p' = p_mod _ p.
  Proof.
    unfold Lib_Model.process_one. intros E. apply bind_ok in E as ([st c] & _ & E). apply bind_ok in E as ([st2 d] & _ & E).
    destruct d as [d|]; [|injection E as <- <- <-; auto].
    destruct (compare_headers _ _ _ _ _); [injection E as <- <- <-; auto|].
    destruct debug; [discriminate|injection E as <- <- <-; auto].
  Qed.

  (** process_message with pairwise different names. *)
  Lemma process_message_spec debug hdrs host : forall procs results mism procs' results' mism',
    NoDup (map (p_name _) procs) ->
    (forall n, In n (map (p_name _) procs) -> ~ In n (keys results)) ->
    process_message debug procs hdrs host results mism = Ok (procs', results', mism') ->
    exists l, Forall2 (fun p x => process_one debug hdrs host p = Ok x) procs l /\
      procs' = map (fun x => fst (fst x)) l /\
      results' = results ++ map (fun x => (p_name _ (fst (fst x)), snd (fst x))) l /\
      mism' = mism ++ map (fun x => p_name _ (fst (fst x))) (filter snd l).
  Proof.
    induction procs as [|p procs IH]; intros results mism procs' results' mism' HN HD E; cbn [Lib_Model.process_message] in E.
    - injection E as <- <- <-. exists []. rewrite !app_nil_r. auto.
    - apply bind_ok in E as ([[p1 sz] bad] & E1 & E).
      apply bind_ok in E as ([[ps r] ms] & E2 & E). injection E as <- <- <-.
      destruct (process_one_name _ _ _ _ _ _ _ E1) as [Hn _].
      cbn [map] in HN. inversion HN as [|? ? Hnot HN']; subst.
      assert (Hg : dget results (p_name _ p1) = None).
      { apply dget_none. rewrite Hn. apply HD. now left. }
      apply IH in E2; [|exact HN'|].
      + destruct E2 as (l & HF & -> & -> & ->). exists ((p1, sz, bad) :: l).
        split; [constructor; auto|]. split; [reflexivity|]. split.
        * rewrite (dset_new _ _ _ Hg). cbn [map fst snd]. now rewrite <- app_assoc.
        * cbn [filter snd]. destruct bad; cbn [map fst]; [now rewrite <- app_assoc|reflexivity].
      + intros n Hin Hk. rewrite (dset_new _ _ _ Hg) in Hk. unfold keys in Hk. rewrite map_app in Hk.
        apply in_app_or in Hk as [Hk|[Hk|[]]].
        * apply (HD n); [now right|exact Hk].
        * cbn in Hk. rewrite Hn in Hk. subst n. contradiction.
  Qed.

  Lemma dget_list_append {A} (d : dict (list A)) k x k' :
    list_at (dappend d k x) k' = list_at d k' ++ (if str_eqb k' k then [x] else []).
  Proof.
    unfold list_at, dappend, dget_list. rewrite dget_dset. destruct (str_eqb_spec k' k) as [H|H].
    - rewrite H. reflexivity.
    - now rewrite app_nil_r.
  Qed.

  Definition size_in (k : str) (todo : dict N) : list N := match dget todo k with Some s => [s] | None => [] end.

  Lemma record_spec baseline results : forall todo sizes ratios sizes' ratios',
    is_dict todo ->
    record_results baseline results todo sizes ratios = Ok (sizes', ratios') ->
    (forall k, list_at sizes' k = list_at sizes k ++ size_in k todo) /\
    (forall k, list_at ratios' k = list_at ratios k ++
       map (fun s => if str_eqb k baseline then (1, 1)
                     else (s, match dget results baseline with Some b => b | None => 0 end)) (size_in k todo)) /\
    (forall k s, In (k, s) todo -> k <> baseline -> dget results baseline <> None).
  Proof.
    induction todo as [|[n s] todo IH]; intros sizes ratios sizes' ratios' HD E; cbn [record_results] in E.
    - injection E as <- <-. unfold size_in. cbn. repeat split; intros; try now rewrite app_nil_r. destruct H.
    - apply bind_ok in E as (r & Er & E).
      unfold is_dict in HD. cbn in HD. inversion HD as [|? ? Hn HD']; subst.
      destruct (IH _ _ _ _ HD' E) as (A & B & C).
      assert (Hnone : dget todo n = None) by now apply dget_none.
      split; [|split].
      + intros k. rewrite A, dget_list_append, <- app_assoc. f_equal. unfold size_in. cbn [dget].
        destruct (str_eqb_spec k n) as [H|H]; [rewrite H, Hnone; reflexivity|reflexivity].
      + intros k. rewrite B, dget_list_append, <- app_assoc. f_equal. unfold size_in. cbn [dget].
        destruct (str_eqb_spec k n) as [H|H]; [|reflexivity]. rewrite H, Hnone. cbn [map app].
        destruct (str_eqb_spec n baseline) as [Hb|Hb].
        * injection Er as <-. reflexivity.
        * destruct (dget results baseline) as [[|b]|]; try discriminate. injection Er as <-. reflexivity.
      + intros k s' [[= -> ->]|Hin] Hne.
        * destruct (str_eqb_spec k baseline); [contradiction|]. destruct (dget results baseline); [discriminate|discriminate Er].
        * eapply C; eauto.
  Qed.

  Lemma size_in_map (l : list (proc * N * bool)) p sz bad : NoDup (map (fun x => p_name _ (fst (fst x))) l) ->
    In (p, sz, bad) l ->
    size_in (p_name _ p) (map (fun x => (p_name _ (fst (fst x)), snd (fst x))) l) = [sz].
  Proof.
    intros HN Hin. unfold size_in. rewrite (in_dget _ (p_name _ p) sz).
    - reflexivity.
    - unfold is_dict, keys. rewrite map_map. exact HN.
    - apply in_map_iff. exists (p, sz, bad). auto.
  Qed.

  (** What one processor contributes to a session. *)
  Definition ratios_of (baseline name : str) (own base : list N) : list ratio :=
    if str_eqb name baseline then map (fun _ => (1, 1)) own else combine own base.

  Lemma session_loop_spec debug baseline msgs : forall procs sizes ratios mism sizes' ratios' mism',
    NoDup (map (p_name _) procs) -> In baseline (map (p_name _) procs) ->
    session_loop debug baseline procs msgs sizes ratios mism = Ok (sizes', ratios', mism') ->
    exists runs bads,
      Forall2 (fun p run => solo_run St p_compress p_decompress (p_mod _ p) (p_st _ p) msgs run) procs runs /\
      mism' = mism ++ bads /\
      (forall p run, In (p, run) (combine procs runs) ->
         list_at sizes' (p_name _ p) = list_at sizes (p_name _ p) ++ map fst run /\
         length run = length msgs /\ length bads = length msgs /\
         (forall i, (i < length msgs)%nat -> (In (p_name _ p) (nth i bads []) <-> nth i (map snd run) false = true)) /\
         exists base, list_at sizes' baseline = list_at sizes baseline ++ base /\
           list_at ratios' (p_name _ p) = list_at ratios (p_name _ p) ++ ratios_of baseline (p_name _ p) (map fst run) base).
  Proof.
    induction msgs as [|[hdrs host] msgs IH]; intros procs sizes ratios mism sizes' ratios' mism' HN HB E; cbn [Lib_Model.session_loop] in E.
    - injection E as <- <- <-. exists (map (fun _ => []) procs), []. split; [|split].
      + clear. induction procs; constructor; auto. constructor.
      + now rewrite app_nil_r.
      + intros p run Hin.
        assert (run = []) as ->.
        { clear -Hin. induction procs; [destruct Hin|]. destruct Hin as [[= _ <-]|Hin]; auto. }
        cbn. rewrite app_nil_r. repeat split; auto; try lia. exists []. rewrite !app_nil_r.
        unfold ratios_of. cbn. destruct (str_eqb (p_name _ p) baseline); now rewrite app_nil_r.
    - apply bind_ok in E as ([[procs1 results] bad] & E1 & E).
      apply bind_ok in E as ([sizes1 ratios1] & E2 & E).
      apply process_message_spec in E1; [|exact HN|intros n _ []].
      destruct E1 as (l & HF & -> & Er & Eb). cbn [app] in Er, Eb.
      assert (Hnames : map (fun x => p_name _ (fst (fst x))) l = map (p_name _) procs).
      { clear -HF. induction HF as [|p [[p1 s] b] ps l E _ IH]; cbn; [reflexivity|].
        destruct (process_one_name _ _ _ _ _ _ _ E) as [-> _]. now rewrite IH. }
      assert (HNl : NoDup (map (fun x => p_name _ (fst (fst x))) l)) by (rewrite Hnames; exact HN).
      assert (HNp : NoDup (map (p_name _) (map (fun x => fst (fst x)) l))) by (rewrite map_map; exact HNl).
      assert (HBp : In baseline (map (p_name _) (map (fun x => fst (fst x)) l))) by (rewrite map_map, Hnames; exact HB).
      apply (IH _ _ _ _ _ _ _ HNp HBp) in E. destruct E as (runs & bads & HR & Em & HP).
      assert (HDr : is_dict results).
      { rewrite Er. unfold is_dict, keys. rewrite map_map. exact HNl. }
      destruct (record_spec _ _ _ _ _ _ _ HDr E2) as (A & B & C).
      (* the baseline's result *)
      assert (Hbase : exists b, dget results baseline = Some b /\ size_in baseline results = [b]).
      { rewrite <- Hnames in HB. apply in_map_iff in HB as ([[pb sb] bb] & Ebn & Hinb). cbn in Ebn.
        pose proof (size_in_map l pb sb bb HNl Hinb) as Hs. rewrite Ebn, <- Er in Hs.
        exists sb. split; [|exact Hs]. unfold size_in in Hs. destruct (dget results baseline); congruence. }
      destruct Hbase as (b0 & Hb0 & Hb1).
      set (run_of := fun (x : proc * N * bool) (r : list (N * bool)) => (snd (fst x), snd x) :: r).
      exists (map (fun xr => run_of (fst xr) (snd xr)) (combine l runs)), (bad :: bads).
      assert (Hlen : length l = length runs) by (apply Forall2_length in HR; rewrite map_length in HR; exact HR).
      split; [|split].
      + (* solo runs *)
        clear -HF HR Hord Hlen. revert runs HR Hlen. induction HF as [|p [[p1 s] b] ps l E HF IH]; intros runs HR Hlen.
        * constructor.
        * destruct runs as [|r runs]; [discriminate|]. cbn [map] in HR. inversion HR as [|? ? ? ? Hr HR']; subst.
          cbn [combine map fst snd]. constructor; [|apply IH; [exact HR'|now injection Hlen]].
          unfold run_of. cbn [fst snd].
          unfold Lib_Model.process_one in E. apply bind_ok in E as ([st c] & Ec & E). apply bind_ok in E as ([st2 d] & Ed & E).
          destruct d as [d|].
          -- pose proof (compare_verdict ord (filter_headers hdrs) (lit "orig") d (p_name _ p) Hord) as HV.
             destruct (compare_headers ord (filter_headers hdrs) (lit "orig") d (p_name _ p)) as [|ch s'] eqn:Ecmp.
             ++ injection E as <- <- <-. eapply solo_dec; eauto. split; [intros _|auto]. now apply HV.
             ++ destruct debug; [discriminate|]. injection E as <- <- <-. eapply solo_dec; eauto.
                split; [discriminate|]. intros Hs. apply HV in Hs. discriminate.
          -- injection E as <- <- <-. eapply solo_nodec; eauto.
      + rewrite Em, <- app_assoc. reflexivity.
      + intros p run Hin.
        (* locate p in l *)
        assert (HL : exists p1 s b r, In (p1, s, b) l /\ In (p1, r) (combine (map (fun x => fst (fst x)) l) runs) /\
                   process_one debug hdrs host p = Ok (p1, s, b) /\ run = (s, b) :: r).
        { clear -HF Hin Hlen. revert runs Hlen Hin. induction HF as [|q [[q1 s] b] ps l E HF IH]; intros runs Hlen Hin; [destruct Hin|].
          destruct runs as [|r runs]; [discriminate|]. cbn [combine map fst snd] in Hin. destruct Hin as [[= -> <-]|Hin].
          - exists q1, s, b, r. cbn. auto.
          - injection Hlen as Hlen. destruct (IH runs Hlen Hin) as (p1 & s1 & b1 & r1 & H1 & H2 & H3).
            exists p1, s1, b1, r1. cbn. auto. }
        destruct HL as (p1 & s & b & r & Hl & Hpr & Eo & ->).
        destruct (process_one_name _ _ _ _ _ _ _ Eo) as [Hn _].
        destruct (HP p1 r Hpr) as (P1 & P2 & P3 & P4 & base & P5 & P6). rewrite Hn in *.
        pose proof (size_in_map l p1 s b HNl Hl) as Hsz. rewrite Hn, <- Er in Hsz.
        cbn [map fst snd length].
        split; [rewrite P1, A, Hsz, <- app_assoc; reflexivity|].
        split; [now rewrite P2|]. split; [now rewrite P3|]. split.
        * intros [|i] Hi; cbn [nth].
          -- rewrite Eb. split.
             ++ intros Hm. apply in_map_iff in Hm as ([[p2 s2] b2] & E3 & Hm). cbn in E3. apply filter_In in Hm as [Hm Hb2].
                cbn in Hb2. subst b2.
                assert ((p2, s2, true) = (p1, s, b)); [|congruence].
                clear -HNl Hm Hl E3 Hn. rewrite <- Hn in E3. revert HNl Hm Hl. induction l as [|x l IH]; [intros _ []|].
                cbn [map]. intros HN. inversion HN as [|? ? Hx HN']; subst. intros [->|Hm] [E|Hl].
                ** congruence.
                ** exfalso. apply Hx. cbn. rewrite E3. apply in_map_iff. exists (p1, s, b). auto.
                ** subst x. exfalso. apply Hx. cbn. rewrite <- E3. apply in_map_iff. exists (p2, s2, true). auto.
                ** auto.
             ++ intros ->. apply in_map_iff. exists (p1, s, true). split; [exact Hn|]. apply filter_In. auto.
          -- apply P4. lia.
        * exists (b0 :: base). split.
          -- rewrite P5, A, Hb1, <- app_assoc. reflexivity.
          -- rewrite P6, B, Hsz, <- app_assoc. f_equal. cbn [map]. rewrite Hb0.
             unfold ratios_of. destruct (str_eqb (p_name St p) baseline); reflexivity.
  Qed.

  (** get_processors, per specification. *)
  Lemma get_processors_spec is_req : forall names procs, get_processors is_req names = Ok procs ->
    Forall2 (fun n p => exists m ps st, parse_spec n = Ok (m, ps) /\ construct m is_req ps = Ok st /\
               p = mkProc St m (display_name m ps) st) names procs.
  Proof.
    induction names as [|n names IH]; intros procs E; cbn [Lib_Model.get_processors] in E.
    - injection E as <-. constructor.
    - apply bind_ok in E as ([m ps] & E1 & E). apply bind_ok in E as (st & E2 & E). apply bind_ok in E as (r & E3 & E).
      injection E as <-. constructor; [|auto]. exists m, ps, st. auto.
  Qed.
End Sessions.

(** ** Names: a raw option with parameters is never a display name *)

Lemma last_split_nosep c s : ~ In c (List.last (split_on c s) []).
Proof.
  pose proof (split_on_nosep c s) as H. pose proof (split_on_nonempty c s) as Hn.
  induction (split_on c s) as [|p ps IH]; [congruence|]. inversion H; subst. destruct ps as [|q ps]; [auto|].
  apply IH; [auto|discriminate].
Qed.

Lemma last_split_in c s x : In x (List.last (split_on c s) []) -> In x s.
Proof.
  assert (H : forall l : list str, l <> [] -> In (List.last l []) l).
  { induction l as [|p ps IH]; [congruence|]. intros _. destruct ps as [|q ps]; [now left|]. right. apply IH. discriminate. }
  intros Hx. eapply split_on_in; [apply H, split_on_nonempty|exact Hx].
Qed.

Lemma display_name_no_raw n m ps raw m0 ps0 :
  parse_spec n = Ok (m, ps) -> split_once 61 raw = (m0, Some ps0) -> ~ In 40 m0 ->
  display_name m ps <> raw.
Proof.
  intros Hp Hr Hm0 E.
  pose proof (split_once_spec 61 raw) as HS. rewrite Hr in HS. destruct HS as [Eraw Hn0].
  assert (Hm : ~ In 61 m).
  { unfold parse_spec in Hp. pose proof (split_once_spec 61 n) as HN. destruct (split_once 61 n) as [a [b|]].
    - apply bind_ok in Hp as (q & _ & Hp). injection Hp as <- _. tauto.
    - injection Hp as <- _. destruct HN as [-> HN]. exact HN. }
  unfold display_name in E.
  set (nm := List.last (split_on 46 (lit "compressor." ++ m)) []) in *.
  assert (Hnm : ~ In 61 nm).
  { intros Hin. apply last_split_in in Hin. apply in_app_or in Hin as [Hin|Hin]; [|contradiction].
    cbn in Hin. repeat (destruct Hin as [Hin|Hin]; [discriminate|]). destruct Hin. }
  destruct ps as [|p ps].
  - rewrite <- E in Eraw. apply Hnm. rewrite Eraw. apply in_or_app. right. now left.
  - (* the first '=' of the display name comes after " (" *)
    assert (Hsp : exists a, split_once 61 (nm ++ lit " (" ++ join (lit ", ") (p :: ps) ++ lit ")") = (nm ++ lit " (" ++ fst a, snd a)).
    { assert (G : forall x y, ~ In 61 x -> split_once 61 (x ++ y) = (x ++ fst (split_once 61 y), snd (split_once 61 y))).
      { induction x as [|c x IH]; intros y Hx; cbn [app split_once].
        - destruct (split_once 61 y); reflexivity.
        - destruct (N.eqb_spec c 61) as [->|_]; [exfalso; apply Hx; now left|].
          rewrite IH by (intros H; apply Hx; now right). reflexivity. }
      exists (split_once 61 (join (lit ", ") (p :: ps) ++ lit ")")).
      rewrite (G nm) by exact Hnm. rewrite (G (lit " (")). 2:{ cbn. intuition discriminate. } cbn [fst snd]. reflexivity. }
    destruct Hsp as (a & Ha). rewrite E, Hr in Ha. injection Ha as Ha _.
    apply Hm0. rewrite Ha. apply in_or_app. right. right. left. reflexivity.
Qed.

(** ** Stream totals *)

Section Totals.
  Variable M : Type.
  Notation store := (store M).

  Lemma fold_dset_get {V} : forall (d2 d1 : dict V) k, is_dict d2 ->
    dget (fold_left (fun d '(k, v) => dset d k v) d2 d1) k =
    match dget d2 k with Some v => Some v | None => dget d1 k end.
  Proof.
    induction d2 as [|[k0 v0] d2 IH]; intros d1 k HD; cbn [fold_left dget]; [reflexivity|].
    unfold is_dict in HD. cbn in HD. inversion HD as [|? ? Hn HD']; subst. rewrite IH by exact HD'. rewrite dget_dset.
    destruct (str_eqb_spec k k0) as [->|H]; [|reflexivity].
    apply dget_none in Hn. now rewrite Hn.
  Qed.

  Lemma fold_merge_get {A} (d1 d2 : dict (list A)) : forall ks d k,
    NoDup ks ->
    dget (fold_left (fun d k => match dget d1 k, dget d2 k with
                          | Some a, Some b => dset d k (a ++ b) | _, _ => d end) ks d) k =
    if mem_str k ks then match dget d1 k, dget d2 k with Some a, Some b => Some (a ++ b) | _, _ => dget d k end
    else dget d k.
  Proof.
    induction ks as [|x ks IH]; intros d k HN; cbn [fold_left]; [reflexivity|].
    inversion HN as [|? ? Hx HN']; subst. rewrite IH by exact HN'.
    unfold mem_str at 2. cbn [existsb]. fold (mem_str k ks).
    destruct (mem_str_spec k ks) as [Hin|Hnin].
    - rewrite orb_true_r. assert (Hne : k <> x) by (intros ->; contradiction).
      assert (Eg : dget (match dget d1 x, dget d2 x with Some a, Some b => dset d x (a ++ b) | _, _ => d end) k = dget d k).
      { destruct (dget d1 x), (dget d2 x); auto. rewrite dget_dset. destruct (str_eqb_spec k x); [contradiction|reflexivity]. }
      now rewrite Eg.
    - rewrite orb_false_r. destruct (str_eqb_spec k x) as [->|Hne].
      + destruct (dget d1 x), (dget d2 x); auto. rewrite dget_dset, str_eqb_refl. reflexivity.
      + destruct (dget d1 x), (dget d2 x); auto. rewrite dget_dset. destruct (str_eqb_spec k x); [contradiction|reflexivity].
  Qed.

  Lemma merge_dols_get {A} (d1 d2 : dict (list A)) k : is_dict d1 -> is_dict d2 ->
    list_at (merge_dols d1 d2) k = list_at d1 k ++ list_at d2 k.
  Proof.
    intros H1 H2. unfold list_at, merge_dols. rewrite fold_merge_get by exact H1. rewrite fold_dset_get by exact H2.
    destruct (mem_str_spec k (keys d1)) as [Hin|Hnin].
    - destruct (dget d1 k) as [a|] eqn:E1; [|apply dget_none in E1; contradiction].
      destruct (dget d2 k); [reflexivity|]. now rewrite app_nil_r.
    - apply dget_none in Hnin. rewrite Hnin. destruct (dget d2 k); reflexivity.
  Qed.

  Lemma is_dict_fold_dset {V} : forall (d2 d1 : dict V), is_dict d1 -> is_dict (fold_left (fun d '(k, v) => dset d k v) d2 d1).
  Proof. induction d2 as [|[k v] d2 IH]; intros d1 H; cbn [fold_left]; [exact H|]. apply IH. now apply is_dict_dset. Qed.

  Lemma merge_dols_dict {A} (d1 d2 : dict (list A)) : is_dict d1 -> is_dict (merge_dols d1 d2).
  Proof.
    intros H1. unfold merge_dols. generalize (keys d1) at 1 as ks.
    assert (H : is_dict (fold_left (fun d '(k, v) => dset d k v) d2 d1)) by now apply is_dict_fold_dset.
    revert H. generalize (fold_left (fun d '(k, v) => dset d k v) d2 d1) as d. intros d H ks. revert d H.
    induction ks as [|x ks IH]; intros d H; cbn [fold_left]; [exact H|]. apply IH.
    destruct (dget d1 x), (dget d2 x); auto. now apply is_dict_dset.
  Qed.

  Definition msgs_of (s : store) (id : nat) : list M :=
    match nth_error (s_objs s) id with
    | Some o => nth (st_msgs o) (s_lists s) []
    | None => []
    end.
  Definition sizes_of (s : store) (id : nat) : dict (list N) :=
    match nth_error (s_objs s) id with Some o => st_sizes o | None => [] end.
  Definition ratios_at (s : store) (id : nat) : dict (list ratio) :=
    match nth_error (s_objs s) id with Some o => st_ratios o | None => [] end.

  Lemma nth_update_same {A} (l : list A) i f d : (i < length l)%nat -> nth i (update_nth i f l) d = f (nth i l d).
  Proof. revert i. induction l as [|x l IH]; intros [|i] H; cbn in *; try lia; auto. apply IH. lia. Qed.

  Lemma nth_update_other {A} (l : list A) i j f d : i <> j -> nth j (update_nth i f l) d = nth j l d.
  Proof. revert i j. induction l as [|x l IH]; intros [|i] [|j] H; cbn; auto; try lia. Qed.

  Lemma length_update {A} (l : list A) i f : length (update_nth i f l) = length l.
  Proof. revert i. induction l as [|x l IH]; intros [|i]; cbn; auto. Qed.

  Lemma nth_error_update_other {A} (l : list A) i j f : i <> j -> nth_error (update_nth i f l) j = nth_error l j.
  Proof. revert i j. induction l as [|x l IH]; intros [|i] [|j] H; cbn; auto; try lia. Qed.

  Lemma nth_error_update_same {A} (l : list A) i f : nth_error (update_nth i f l) i = option_map f (nth_error l i).
  Proof. revert i. induction l as [|x l IH]; intros [|i]; cbn; auto. Qed.

  Definition wf_obj (s : store) (o : strm) : Prop :=
    (st_msgs o < length (s_lists s))%nat /\ is_dict (st_sizes o) /\ is_dict (st_ratios o).

  (** reduce: [acc] with the remaining sessions. *)
  Lemma reduce_spec t : forall ids s acc o, 
    nth_error (s_objs s) acc = Some o -> wf_obj s o -> st_type o = t ->
    Forall (fun id => exists o', nth_error (s_objs s) id = Some o' /\ wf_obj s o' /\ st_type o' = t /\ st_msgs o' <> st_msgs o) ids ->
    exists s' n o', reduce_add M s acc ids = Ok (s', n) /\
      (exists news, s_objs s' = s_objs s ++ news) /\
      (ids <> [] -> (length (s_objs s) <= n)%nat) /\ (ids = [] -> n = acc) /\
      nth_error (s_objs s') n = Some o' /\ st_msgs o' = st_msgs o /\ st_type o' = t /\
      length (s_lists s') = length (s_lists s) /\
      (forall j, j <> st_msgs o -> nth j (s_lists s') [] = nth j (s_lists s) []) /\
      nth (st_msgs o) (s_lists s') [] = nth (st_msgs o) (s_lists s) [] ++ flat_map (msgs_of s) ids /\
      (forall k, list_at (st_sizes o') k = list_at (st_sizes o) k ++ flat_map (fun id => list_at (sizes_of s id) k) ids) /\
      (forall k, list_at (st_ratios o') k = list_at (st_ratios o) k ++ flat_map (fun id => list_at (ratios_at s id) k) ids).
  Proof.
    induction ids as [|i ids IH]; intros s acc o Ho Hw Ht HF; cbn [reduce_add].
    - exists s, acc, o. cbn. setoid_rewrite app_nil_r. repeat split; auto; try congruence.
      exists []. now rewrite app_nil_r.
    - inversion HF as [|? ? (oi & Hi & Hwi & Hti & Hmi) HF']; subst.
      unfold stream_add. rewrite Ho, Hi, Hti, eqb_reflx. cbn [negb bind].
      destruct Hw as (Hw1 & Hw2 & Hw3). destruct Hwi as (Hwi1 & Hwi2 & Hwi3).
      match goal with |- context [reduce_add M ?s1 _ _] => set (s1' := s1) end.
      match goal with s1' := {| s_lists := _; s_objs := _ ++ [?nw] |} |- _ => set (new := nw) in * end.
      assert (Hnew : nth_error (s_objs s1') (length (s_objs s)) = Some new).
      { unfold s1'. cbn. rewrite nth_error_app2, Nat.sub_diag by lia. reflexivity. }
      assert (Hold : forall j, (j < length (s_objs s))%nat -> nth_error (s_objs s1') j = nth_error (s_objs s) j).
      { intros j Hj. unfold s1'. cbn. now rewrite nth_error_app1. }
      assert (Hlen1 : length (s_lists s1') = length (s_lists s)) by (unfold s1'; cbn; apply length_update).
      destruct (IH s1' (length (s_objs s)) new) as (s' & n & o' & E & (news & En) & Hn1 & Hn2 & Hn & Hm & Hty & HL & HO & HMs & HS & HR).
      + exact Hnew.
      + repeat split; cbn; [now rewrite length_update|now apply merge_dols_dict|now apply merge_dols_dict].
      + reflexivity.
      + eapply Forall_impl; [|exact HF']. intros id (o2 & H2 & (W1 & W2 & W3) & Ht2 & Hm2). exists o2.
        split; [rewrite Hold; [exact H2|]; apply nth_error_Some; congruence|].
        split; [repeat split; [now rewrite Hlen1|exact W2|exact W3]|]. split; [exact Ht2|exact Hm2].
      + exists s', n, o'. split; [exact E|]. split.
        { exists (new :: news). rewrite En. unfold s1'. cbn. now rewrite <- app_assoc. }
        split.
        { intros _. destruct ids as [|i2 ids2]; [rewrite Hn2 by reflexivity; lia|].
          assert (length (s_objs s1') <= n)%nat by (apply Hn1; discriminate). unfold s1' in H. cbn in H. rewrite app_length in H. lia. }
        split; [discriminate|]. split; [exact Hn|]. split; [exact Hm|]. split; [exact Hty|].
        split; [now rewrite HL|]. split.
        { intros j Hj. rewrite HO by exact Hj. unfold s1'. cbn. apply nth_update_other. auto. }
        cbn [st_msgs new] in *.
        assert (Hms : forall id, In id ids -> msgs_of s1' id = msgs_of s id /\ sizes_of s1' id = sizes_of s id /\ ratios_at s1' id = ratios_at s id).
        { intros id Hid. rewrite Forall_forall in HF'. destruct (HF' id Hid) as (o2 & H2 & _ & _ & Hm2).
          unfold msgs_of, sizes_of, ratios_at. rewrite Hold by (apply nth_error_Some; congruence). rewrite H2.
          split; [|auto]. unfold s1'. cbn. apply nth_update_other. auto. }
        assert (Hfm : forall {B} (f g : nat -> list B), (forall id, In id ids -> f id = g id) -> flat_map f ids = flat_map g ids).
        { clear. induction ids as [|a ids IH]; cbn; intros B f g H; [reflexivity|]. rewrite (H a) by auto. f_equal. apply IH. auto. }
        split; [|split].
        * rewrite HMs. unfold s1' at 1. cbn [s_lists]. rewrite nth_update_same by exact Hw1.
          rewrite <- app_assoc. f_equal. cbn [flat_map]. f_equal.
          -- unfold msgs_of. rewrite Hi. rewrite (nth_error_nth' _ [] Hwi1). reflexivity.
          -- apply Hfm. intros id Hid. apply Hms, Hid.
        * intros k. rewrite HS. unfold new at 1. cbn [st_sizes]. rewrite merge_dols_get by auto. rewrite <- app_assoc.
          f_equal. cbn [flat_map]. f_equal; [unfold sizes_of; now rewrite Hi|].
          apply Hfm. intros id Hid. destruct (Hms id Hid) as (_ & -> & _). reflexivity.
        * intros k. rewrite HR. unfold new at 1. cbn [st_ratios]. rewrite merge_dols_get by auto. rewrite <- app_assoc.
          f_equal. cbn [flat_map]. f_equal; [unfold ratios_at; now rewrite Hi|].
          apply Hfm. intros id Hid. destruct (Hms id Hid) as (_ & _ & ->). reflexivity.
  Qed.
End Totals.
