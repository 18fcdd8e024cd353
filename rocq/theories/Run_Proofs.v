(** * The whole tool: lemmas for C77 - C79. *)
From Coq Require Import String List NArith ZArith QArith Bool Lia Permutation.
From Verif Require Import PyBase PyStr Lib_Model Lib_Spec Lib_Proofs Lib_Session Prop_Lib Run_Model.
Import ListNotations.
Open Scope N_scope.
Open Scope py_scope.

(** ** Fractions *)

Definition ratio_le (a b : ratio) : Prop := fst a * snd b <= fst b * snd a.
Definition positive (a : ratio) : Prop := 0 < snd a.

Lemma ratio_le_refl a : ratio_le a a.
Proof. unfold ratio_le. lia. Qed.

Lemma ratio_le_trans a b c : positive b -> ratio_le a b -> ratio_le b c -> ratio_le a c.
Proof.
  unfold ratio_le, positive. destruct a as [a1 a2], b as [b1 b2], c as [c1 c2]. cbn [fst snd]. intros P H1 H2.
  apply (N.mul_le_mono_pos_r _ _ b2); [exact P|].
  apply N.le_trans with (b1 * a2 * c2); [|].
  - replace (a1 * c2 * b2) with (a1 * b2 * c2) by lia. now apply N.mul_le_mono_r.
  - replace (b1 * a2 * c2) with (b1 * c2 * a2) by lia. replace (c1 * a2 * b2) with (c1 * b2 * a2) by lia.
    now apply N.mul_le_mono_r.
Qed.

Lemma ratio_lt_spec a b : if ratio_lt a b then ratio_le a b else ratio_le b a.
Proof. unfold ratio_lt, ratio_le. destruct (N.ltb_spec (fst a * snd b) (fst b * snd a)); lia. Qed.

Lemma fold_min r : forall x, positive x -> Forall positive r ->
  let m := fold_left (fun m y => if ratio_lt y m then y else m) r x in
  In m (x :: r) /\ Forall (ratio_le m) (x :: r).
Proof.
  induction r as [|y r IH]; intros x Px Pr; cbn [fold_left].
  - split; [now left|]. repeat constructor. apply ratio_le_refl.
  - inversion Pr as [|? ? Py Pr']; subst. pose proof (ratio_lt_spec y x) as L.
    destruct (ratio_lt y x).
    + destruct (IH y Py Pr') as [H1 H2]. split; [right; exact H1|]. constructor; [|exact H2].
      inversion H2; subst. eapply ratio_le_trans; [exact Py|eassumption|exact L].
    + destruct (IH x Px Pr') as [H1 H2]. split; [destruct H1; [now left|right; now right]|].
      inversion H2 as [|? ? H3 H4]; subst. constructor; [exact H3|]. constructor; [|exact H4].
      eapply ratio_le_trans; [exact Px|exact H3|exact L].
Qed.

Lemma fold_max r : forall x, positive x -> Forall positive r ->
  let m := fold_left (fun m y => if ratio_lt m y then y else m) r x in
  In m (x :: r) /\ Forall (fun y => ratio_le y m) (x :: r).
Proof.
  induction r as [|y r IH]; intros x Px Pr; cbn [fold_left].
  - split; [now left|]. repeat constructor. apply ratio_le_refl.
  - inversion Pr as [|? ? Py Pr']; subst. pose proof (ratio_lt_spec x y) as L.
    destruct (ratio_lt x y).
    + destruct (IH y Py Pr') as [H1 H2]. split; [right; exact H1|]. constructor; [|exact H2].
      inversion H2; subst. eapply ratio_le_trans; [exact Py|exact L|eassumption].
    + destruct (IH x Px Pr') as [H1 H2]. split; [destruct H1; [now left|right; now right]|].
      inversion H2 as [|? ? H3 H4]; subst. constructor; [exact H3|]. constructor; [|exact H4].
      eapply ratio_le_trans; [exact Px|exact L|exact H3].
Qed.

Lemma sum_sizes_acc l : forall a, fold_left N.add l a = a + sum_sizes l.
Proof.
  unfold sum_sizes. induction l as [|x l IH]; intros a; cbn [fold_left]; [lia|]. rewrite (IH (a + x)), (IH (0 + x)). lia.
Qed.
Lemma sum_cons x l : sum_sizes (x :: l) = x + sum_sizes l.
Proof. unfold sum_sizes at 1. cbn [fold_left]. rewrite sum_sizes_acc. lia. Qed.

(** The mediant: a total lies between the smallest and the largest part. *)
Lemma mediant m : forall l : list (N * N), Forall (ratio_le m) l -> ratio_le m (sum_sizes (map fst l), sum_sizes (map snd l)).
Proof.
  unfold ratio_le. cbn [fst snd]. induction l as [|[a b] l IH]; intros H; cbn [map fst snd].
  - unfold sum_sizes. cbn. lia.
  - inversion H as [|? ? H1 H2]; subst. specialize (IH H2). rewrite !sum_cons. cbn [fst snd] in *. lia.
Qed.
Lemma mediant_max m : forall l : list (N * N), Forall (fun r => ratio_le r m) l -> ratio_le (sum_sizes (map fst l), sum_sizes (map snd l)) m.
Proof.
  unfold ratio_le. cbn [fst snd]. induction l as [|[a b] l IH]; intros H; cbn [map fst snd].
  - unfold sum_sizes. cbn. lia.
  - inversion H as [|? ? H1 H2]; subst. specialize (IH H2). rewrite !sum_cons. cbn [fst snd] in *. lia.
Qed.

(** ** Summaries *)

Lemma lookup_ok {A} b (d : dict (list A)) k l : lookup_list b d k = Ok l -> l = list_at d k.
Proof. unfold lookup_list, list_at. destruct (dget d k); [congruence|]. destruct b; congruence. Qed.

Lemma summary_line_ok b s n p l : summary_line b s n p = Ok l -> Forall positive (list_at (st_ratios s) p) ->
  l_proc l = p /\ l_size l = sum_sizes (list_at (st_sizes s) p) /\ l_ratio l = (l_size l, n) /\ 0 < n /\
  In (l_min l) (list_at (st_ratios s) p) /\ Forall (ratio_le (l_min l)) (list_at (st_ratios s) p) /\
  In (l_max l) (list_at (st_ratios s) p) /\ Forall (fun r => ratio_le r (l_max l)) (list_at (st_ratios s) p) /\
  l_var l = match variance (list_at (st_ratios s) p) with Some v => v | None => 0%Q end.
Proof.
  unfold summary_line. intros E P. apply bind_ok in E as (sz & E1 & E). apply lookup_ok in E1. subst sz.
  destruct (N.eqb_spec n 0); [discriminate|]. apply bind_ok in E as (rs & E1 & E). apply lookup_ok in E1. subst rs.
  apply bind_ok in E as (mn & E1 & E). apply bind_ok in E as (mx & E2 & E).
  destruct (list_at (st_ratios s) p) as [|x r] eqn:Er; [discriminate|].
  inversion P as [|? ? P1 P2]; subst.
  destruct (fold_min r x P1 P2) as [A1 A2]. destruct (fold_max r x P1 P2) as [B1 B2].
  cbn [py_min py_max] in *.
  set (v := match variance (x :: r) with Some v => v | None => 0%Q end) in *.
  assert (El : l = mkLine p (sum_sizes (list_at (st_sizes s) p)) (sum_sizes (list_at (st_sizes s) p), n) mn mx v) by congruence.
  assert (mn = fold_left (fun m y => if ratio_lt y m then y else m) r x) by congruence.
  assert (mx = fold_left (fun m y => if ratio_lt m y then y else m) r x) by congruence.
  clear E E1 E2. subst l. cbn [l_proc l_size l_ratio l_min l_max l_var]. subst mn mx.
  repeat split; auto. lia.
Qed.

Lemma summary_lines_ok b s n ps : forall ls, summary_lines b s n ps = Ok ls ->
  Forall2 (fun p l => summary_line b s n p = Ok l) ps ls.
Proof.
  induction ps as [|p ps IH]; intros ls E; cbn [summary_lines] in E.
  - assert (ls = []) as -> by congruence. constructor.
  - apply bind_ok in E as (l & E1 & E). apply bind_ok in E as (ls' & E2 & E).
    assert (ls = l :: ls') as -> by congruence. constructor; auto.
Qed.

Lemma print_summary_ok b s base ps ls : print_summary b s base ps = Ok ls ->
  Forall2 (fun p l => summary_line b s (sum_sizes (list_at (st_sizes s) base)) p = Ok l) ps ls.
Proof.
  unfold print_summary. intros E. apply bind_ok in E as (x & E1 & E). apply lookup_ok in E1. subst x.
  now apply summary_lines_ok.
Qed.

(** Conversely. *)
Lemma summary_line_total b s n p : 0 < n -> dget (st_sizes s) p <> None -> list_at (st_ratios s) p <> [] ->
  exists l, summary_line b s n p = Ok l.
Proof.
  intros Hn Hs Hr. unfold summary_line, lookup_list. destruct (dget (st_sizes s) p); [|congruence]. cbn [bind].
  destruct (N.eqb_spec n 0); [lia|]. unfold list_at in Hr. destruct (dget (st_ratios s) p) as [[|x r]|]; [congruence| |congruence].
  cbn [bind py_min py_max]. eauto.
Qed.

(** ** Sessions *)
Section Run.
  Variable St : Type.
  Variable construct : str -> bool -> list str -> res St.
  Variable p_compress : str -> St -> hdict -> str -> res (St * str).
  Variable p_decompress : str -> St -> str -> res (St * option hdict).
  Variable ord : list (str * str) -> list (str * str).
  Hypothesis Ho : is_order ord.

  Definition shown (n : str) : str := match parse_spec n with Ok (m, ps) => display_name m ps | Err _ => [] end.

  Notation process_session := (process_session St construct p_compress p_decompress ord).
  Notation solo := (solo_run St p_compress p_decompress).

  Lemma construct_all_ok : forall names procs, construct_all St construct names = Ok procs ->
    procs = map shown names /\
    Forall (fun n => exists m ps a b, parse_spec n = Ok (m, ps) /\ construct m true ps = Ok a /\ construct m false ps = Ok b) names.
  Proof.
    induction names as [|n ns IH]; intros procs E; cbn [construct_all] in E.
    - assert (procs = []) as -> by congruence. split; constructor.
    - apply bind_ok in E as ([m ps] & E1 & E). apply bind_ok in E as (a & E2 & E). apply bind_ok in E as (b & E3 & E).
      apply bind_ok in E as (r & E4 & E). assert (procs = display_name m ps :: r) as -> by congruence.
      destruct (IH _ E4) as [-> H]. split.
      + cbn [map]. unfold shown at 2. now rewrite E1.
      + constructor; [|exact H]. exists m, ps, a, b. auto.
  Qed.

  (** The recorded dictionaries are dictionaries, and no ratio has denominator 0. *)
  Definition good_ratios (d : dict (list ratio)) : Prop := Forall (fun kv => Forall positive (snd kv)) d.

  Lemma dset_in {A} (d : dict A) k v k' v' : In (k', v') (dset d k v) -> (k', v') = (k, v) \/ In (k', v') d.
  Proof.
    induction d as [|[k1 v1] d IH]; cbn [dset].
    - intros [H|[]]. left. congruence.
    - destruct (str_eqb k k1); cbn [In]; intros [H|H].
      + left. congruence.
      + right. now right.
      + right. now left.
      + destruct (IH H); [now left|right; now right].
  Qed.

  Lemma good_at d k : good_ratios d -> Forall positive (list_at d k).
  Proof.
    intros H. unfold list_at. destruct (dget d k) as [l|] eqn:E; [|constructor].
    apply dget_in in E. unfold good_ratios in H. rewrite Forall_forall in H. exact (H _ E).
  Qed.

  Lemma record_good base results : forall todo sizes ratios sizes' ratios',
    record_results base results todo sizes ratios = Ok (sizes', ratios') ->
    is_dict sizes -> is_dict ratios -> good_ratios ratios ->
    is_dict sizes' /\ is_dict ratios' /\ good_ratios ratios'.
  Proof.
    induction todo as [|[n s] todo IH]; intros sizes ratios sizes' ratios' E D1 D2 G; cbn [record_results] in E.
    - assert (sizes' = sizes /\ ratios' = ratios) as [-> ->] by (split; congruence). auto.
    - apply bind_ok in E as (r & Er & E). apply IH in E; auto.
      + now apply is_dict_dset.
      + now apply is_dict_dset.
      + unfold good_ratios. apply Forall_forall. intros [k v] Hin. cbn [snd]. unfold dappend in Hin.
        apply dset_in in Hin. destruct Hin as [Hin|Hin].
        * injection Hin as -> ->. apply Forall_app. split.
          -- exact (good_at ratios n G).
          -- repeat constructor. unfold positive. destruct (str_eqb n base).
             ++ assert (r = (1, 1)) as -> by congruence. reflexivity.
             ++ destruct (dget results base) as [[|b]|]; try discriminate. assert (r = (s, N.pos b)) as -> by congruence. reflexivity.
        * unfold good_ratios in G. rewrite Forall_forall in G. exact (G _ Hin).
  Qed.

  Lemma loop_good debug base msgs : forall procs sizes ratios mism sizes' ratios' mism',
    session_loop St p_compress p_decompress ord debug base procs msgs sizes ratios mism = Ok (sizes', ratios', mism') ->
    is_dict sizes -> is_dict ratios -> good_ratios ratios ->
    is_dict sizes' /\ is_dict ratios' /\ good_ratios ratios'.
  Proof.
    induction msgs as [|[hdrs host] msgs IH]; intros procs sizes ratios mism sizes' ratios' mism' E D1 D2 G; cbn [session_loop] in E.
    - assert (sizes' = sizes /\ ratios' = ratios) as [-> ->] by (split; congruence). auto.
    - apply bind_ok in E as ([[procs1 results] bad] & _ & E). apply bind_ok in E as ([sizes1 ratios1] & E2 & E).
      destruct (record_good _ _ _ _ _ _ _ E2 D1 D2 G) as (A & B & C). eapply IH; eauto.
  Qed.

  Definition ratios_spec (is_base : bool) (own base : list N) : list ratio :=
    if is_base then map (fun _ => (1, 1)) own else combine own base.

  Lemma session_facts debug base names t msgs sizes ratios mism :
    process_session debug base names t msgs = Ok (sizes, ratios, mism) ->
    NoDup (map shown names) -> In base (map shown names) ->
    is_dict sizes /\ is_dict ratios /\ good_ratios ratios /\
    forall n m ps, In n names -> parse_spec n = Ok (m, ps) ->
      exists st run, construct m t ps = Ok st /\ solo m st msgs run /\ length run = length msgs /\
        list_at sizes (display_name m ps) = map fst run /\
        list_at ratios (display_name m ps) = ratios_spec (str_eqb (display_name m ps) base) (map fst run) (list_at sizes base) /\
        (forall i, (i < length msgs)%nat ->
           (In (display_name m ps) (nth i mism []) <-> nth i (map snd run) false = true)).
  Proof.
    intros E HN HB. unfold Lib_Model.process_session in E. apply bind_ok in E as (procs & Eg & El).
    destruct (loop_good _ _ _ _ _ _ _ _ _ _ El) as (D1 & D2 & G); try (constructor; fail).
    split; [exact D1|]. split; [exact D2|]. split; [exact G|]. intros n m ps Hin Hp.
    pose proof (get_processors_spec _ _ _ _ _ Eg) as HG.
    assert (Hnames : map (p_name _) procs = map shown names).
    { clear -HG. induction HG as [|x p ns procs (m & ps & st & E1 & _ & ->) _ IH]; cbn; [reflexivity|].
      unfold shown at 1. rewrite E1, IH. reflexivity. }
    assert (HNp : NoDup (map (p_name _) procs)) by (rewrite Hnames; exact HN).
    assert (HBp : In base (map (p_name _) procs)) by (rewrite Hnames; exact HB).
    destruct (session_loop_spec St p_compress p_decompress ord Ho _ _ _ _ _ _ _ _ _ _ HNp HBp El)
      as (runs & bads & HR & Em & HP).
    assert (HL : exists p run, In (p, run) (combine procs runs) /\ p_mod _ p = m /\ p_name _ p = display_name m ps /\
                 construct m t ps = Ok (p_st _ p) /\ solo m (p_st _ p) msgs run).
    { clear -HG HR Hin Hp. revert runs HR. induction HG as [|x p ns procs (m' & ps' & st & E1 & E2 & ->) _ IH]; intros runs HR; [destruct Hin|].
      inversion HR as [|? r ? rs Hr HR']; subst. destruct Hin as [->|Hin].
      - rewrite Hp in E1. injection E1 as <- <-. eexists _, r. split; [left; reflexivity|]. cbn. auto.
      - destruct (IH Hin _ HR') as (p & run & H1 & H2). exists p, run. split; [right; exact H1|exact H2]. }
    destruct HL as (p & run & Hpr & Hm & Hn & Hc & Hs).
    destruct (HP p run Hpr) as (P1 & P2 & P3 & P4 & b & P5 & P6). rewrite Hn in P1, P4, P6.
    exists (p_st _ p), run. split; [exact Hc|]. split; [exact Hs|]. split; [exact P2|]. split; [exact P1|]. split.
    - etransitivity; [exact P6|]. cbn [app list_at dget]. unfold ratios_of, ratios_spec. rewrite P5. reflexivity.
    - intros i Hi. rewrite Em. cbn [app]. now apply P4.
  Qed.

  Notation run_sessions := (run_sessions St construct p_compress p_decompress ord).

  (** What the [i]-th session leaves behind. *)
  Definition session_left (o : opts) (procs : list str) (k : nat) (s : stream_desc) (obj : strm) (rep : session_report) : Prop :=
    exists sizes ratios mism lines,
      obj = mkStrm (sd_name s) k (sd_req s) sizes ratios /\ rep = mkSR (sd_name s) (length (sd_msgs s)) mism lines /\
      process_session (o_debug o) (baseline_of o) (names_of o) (sd_req s) (sd_msgs s) = Ok (sizes, ratios, mism) /\
      (if o_verbose o then exists l, lines = Some l /\ print_summary true obj (baseline_of o) procs = Ok l else lines = None).

  Lemma run_sessions_ok o procs : forall ss k objs reps, run_sessions o procs k ss = Ok (objs, reps) ->
    length objs = length ss /\ length reps = length ss /\
    forall i s, nth_error ss i = Some s -> exists obj rep, nth_error objs i = Some obj /\ nth_error reps i = Some rep /\
      session_left o procs (k + i) s obj rep.
  Proof.
    induction ss as [|s ss IH]; intros k objs reps E; cbn [Run_Model.run_sessions] in E.
    - assert (objs = [] /\ reps = []) as [-> ->] by (split; congruence). split; [reflexivity|]. split; [reflexivity|].
      intros [|i] s; discriminate.
    - apply bind_ok in E as ([[sizes ratios] mism] & E1 & E). apply bind_ok in E as (lines & E2 & E).
      apply bind_ok in E as ([objs' reps'] & E3 & E). cbv beta iota zeta in E.
      assert (objs = mkStrm (sd_name s) k (sd_req s) sizes ratios :: objs') as -> by congruence.
      assert (reps = mkSR (sd_name s) (length (sd_msgs s)) mism lines :: reps') as -> by congruence.
      destruct (IH _ _ _ E3) as (L1 & L2 & H). split; [cbn [length]; lia|]. split; [cbn [length]; lia|].
      intros [|i] s' Hs; cbn [nth_error] in *.
      + assert (s' = s) as -> by congruence. do 2 eexists. split; [reflexivity|]. split; [reflexivity|].
        rewrite Nat.add_0_r. exists sizes, ratios, mism, lines. split; [reflexivity|]. split; [reflexivity|]. split; [exact E1|].
        destruct (o_verbose o); [|congruence]. apply bind_ok in E2 as (l & E2 & E4). exists l. split; [congruence|exact E2].
      + destruct (H i s' Hs) as (obj & rep & A & B & C). exists obj, rep. rewrite <- Nat.add_succ_comm. auto.
  Qed.
End Run.
