(** * What the tool reports: specification and lemmas for C77 - C79. *)
From Coq Require Import String List NArith ZArith QArith Bool Lia Permutation.
From Verif Require Import PyBase PyStr Lib_Model Lib_Spec Lib_Proofs Lib_Session Prop_Lib Run_Model Run_Proofs Run_Total.
Import ListNotations.
Open Scope N_scope.
Open Scope py_scope.

(** ** Specification *)

Definition total (l : list N) : N := fold_right N.add 0 l.

(** The ratios of the messages: size over the baseline's size, and 1 for the baseline. *)
Definition message_ratios (is_base : bool) (own base : list N) : list ratio :=
  if is_base then map (fun _ => (1, 1)) own else combine own base.

Definition value (r : ratio) : Q := (inject_Z (Z.of_N (fst r)) / inject_Z (Z.of_N (snd r)))%Q.
Definition qsum (l : list Q) : Q := fold_right Qplus 0%Q l.

(** [v] is the sample variance of the ratios; 0 for a single one. *)
Definition sample_variance (rs : list ratio) (v : Q) : Prop :=
  let n := inject_Z (Z.of_nat (length rs)) in
  if (length rs <=? 1)%nat then v = 0%Q
  else exists mean, (n * mean == qsum (map value rs))%Q /\
    ((n - 1) * v == qsum (map (fun r => (value r - mean) * (value r - mean)) rs))%Q.

(** A line reports on a processor with sizes [own], the baseline having sizes [base]. *)
Definition describes (l : line) (is_base : bool) (own base : list N) : Prop :=
  let rs := message_ratios is_base own base in
  l_size l = total own /\ l_ratio l = (total own, total base) /\ 0 < total base /\
  In (l_min l) rs /\ (forall r, In r rs -> fst (l_min l) * snd r <= fst r * snd (l_min l)) /\
  In (l_max l) rs /\ (forall r, In r rs -> fst r * snd (l_max l) <= fst (l_max l) * snd r) /\
  (forall r, In r rs -> 0 < snd r) /\ sample_variance rs (l_var l).

(** ** Sums *)
Lemma sum_total l : sum_sizes l = total l.
Proof. induction l as [|x l IH]; [reflexivity|]. rewrite sum_cons, IH. reflexivity. Qed.

Lemma fold_qsum {A} (f : A -> Q) l : forall a, (fold_left (fun m x => m + f x) l a == a + qsum (map f l))%Q.
Proof.
  induction l as [|x l IH]; intros a; cbn [fold_left map qsum fold_right].
  - ring.
  - rewrite IH. unfold qsum. ring.
Qed.

Lemma q_of_value r : positive r -> (q_of r == value r)%Q.
Proof.
  unfold positive, q_of, value. intros P. destruct r as [a b]. cbn [fst snd] in *.
  assert (E : N.succ_pos (N.pred b) = match b with N.pos p => p | N0 => 1%positive end).
  { destruct b as [|p]; [lia|]. cbn. destruct p; cbn; try reflexivity. now rewrite Pos.succ_pred_double || (rewrite Pos.succ_pred_double; reflexivity). }
  rewrite E. destruct b as [|p]; [lia|]. cbn [Z.of_N]. unfold Qeq, Qdiv, Qmult, Qinv, inject_Z. cbn. lia.
Qed.

Lemma qsum_ext {A} (f g : A -> Q) l : (forall x, In x l -> (f x == g x)%Q) -> (qsum (map f l) == qsum (map g l))%Q.
Proof.
  induction l as [|x l IH]; intros H; cbn [map qsum fold_right]; [reflexivity|].
  rewrite (H x) by now left. unfold qsum in IH. rewrite IH; [reflexivity|]. intros; apply H; now right.
Qed.

Lemma variance_ok rs : Forall positive rs -> sample_variance rs (match variance rs with Some v => v | None => 0%Q end).
Proof.
  intros P. unfold sample_variance. destruct rs as [|r1 [|r2 rs]]; [reflexivity|reflexivity|].
  set (l := r1 :: r2 :: rs) in *. assert (Hl : (2 <= length l)%nat) by (unfold l; cbn [length]; lia).
  destruct (Nat.leb_spec (length l) 1); [lia|]. change (variance l) with
    (Some (let n := Z.of_nat (length l) in
      let mean := (fold_left (fun m x => m + q_of x) l 0 / inject_Z n)%Q in
      (fold_left (fun s x => s + (q_of x - mean) * (q_of x - mean)) l 0 / inject_Z (n - 1))%Q)).
  cbv zeta. set (n := Z.of_nat (length l)) in *. set (mean := (fold_left (fun m x => m + q_of x) l 0 / inject_Z n)%Q).
  assert (Hn : (2 <= n)%Z) by (unfold n; lia). clearbody n.
  assert (Hq : forall x, In x l -> (q_of x == value x)%Q).
  { intros x Hx. apply q_of_value. rewrite Forall_forall in P. now apply P. }
  exists mean. split.
  - unfold mean. rewrite fold_qsum, (qsum_ext q_of value l Hq). field. unfold Qeq, inject_Z. cbn. lia.
  - rewrite (fold_qsum (fun x => (q_of x - mean) * (q_of x - mean))%Q).
    rewrite (qsum_ext (fun x => (q_of x - mean) * (q_of x - mean))%Q (fun r => (value r - mean) * (value r - mean))%Q).
    2:{ intros x Hx. rewrite (Hq x Hx). reflexivity. }
    unfold Z.sub. rewrite inject_Z_plus. change (inject_Z (- (1))) with (- (1))%Q. field.
    intros Z. assert (inject_Z (n - 1) == 0)%Q.
    { unfold Z.sub. rewrite inject_Z_plus. change (inject_Z (- (1))) with (- (1))%Q. exact Z. }
    unfold Qeq, inject_Z in H0. cbn in H0. lia.
Qed.

(** ** The reports *)
Section Reports.
  Variable St : Type.
  Variable construct : str -> bool -> list str -> res St.
  Variable p_compress : str -> St -> hdict -> str -> res (St * str).
  Variable p_decompress : str -> St -> str -> res (St * option hdict).

  (** [sizes]: what the processor given by the option [n] makes of the
      streams, a new object for each of them, one size per message. *)
  Definition alone (n : str) (t : bool) (streams : list stream_desc) (sizes : list N) : Prop :=
    exists m ps runs, parse_spec n = Ok (m, ps) /\
      Forall2 (fun s run => length run = length (sd_msgs s) /\
        exists st, construct m t ps = Ok st /\ solo_run St p_compress p_decompress m st (sd_msgs s) run) streams runs /\
      sizes = map fst (concat runs).

  Variable ord : list (str * str) -> list (str * str).
  Hypothesis Ho : is_order ord.
  Variable o : opts.
  Hypothesis HN : NoDup (map shown (names_of o)).
  Hypothesis HB : In (baseline_of o) (map shown (names_of o)).

  Notation Left := (session_left St construct p_compress p_decompress ord o (map shown (names_of o))).

  Lemma flat_concat {A B} (f : A -> B) ll : flat_map (map f) ll = map f (concat ll).
  Proof. induction ll as [|l ll IH]; cbn; [reflexivity|]. now rewrite map_app, IH. Qed.

  Hypothesis parses : Forall (fun n => exists m ps a b, parse_spec n = Ok (m, ps) /\ construct m true ps = Ok a /\ construct m false ps = Ok b) (names_of o).

  Lemma parse_of n : In n (names_of o) -> exists m ps, parse_spec n = Ok (m, ps) /\ shown n = display_name m ps.
  Proof.
    intros H. rewrite Forall_forall in parses. destruct (parses n H) as (m & ps & _ & _ & E & _).
    exists m, ps. split; [exact E|]. unfold shown. now rewrite E.
  Qed.

  Lemma alone_length n t ss sizes : alone n t ss sizes -> length sizes = length (flat_map sd_msgs ss).
  Proof.
    intros (m & ps & runs & _ & H & ->). rewrite map_length. induction H as [|s run ss runs [Hl _] _ IH]; [reflexivity|].
    cbn [concat flat_map]. now rewrite !app_length, IH, Hl.
  Qed.

  (** Sizes of one direction, gathered. *)
  Lemma gather t ss objs (st : Store) : (forall i s, nth_error ss i = Some s -> exists obj rep k, nth_error objs i = Some obj /\ Left k s obj rep) ->
    holds t ss objs st ->
    forall n, In n (names_of o) -> alone n t (of_dir t ss) (flat_map (fun id => list_at (sizes_of st id) (shown n)) (places t 0 ss)).
  Proof.
    intros HL HH n Hin. destruct (parse_of n Hin) as (m & ps & Ep & Es).
    destruct (places_gather t (fun id => list_at (sizes_of st id) (shown n)) (map fst)
      (fun s run => length run = length (sd_msgs s) /\
        exists st, construct m t ps = Ok st /\ solo_run St p_compress p_decompress m st (sd_msgs s) run) ss 0) as (runs & H1 & H2).
    { intros i s Ei Ht. destruct (HL i s Ei) as (obj & rep & k & Eo & sizes & ratios & mism & lines & -> & -> & Eps & _).
      destruct (session_facts St construct p_compress p_decompress ord Ho _ _ _ _ _ _ _ _ Eps HN HB) as (_ & _ & _ & F).
      destruct (F n m ps Hin Ep) as (st0 & run & C1 & C2 & C3 & C4 & _).
      exists run. rewrite Ht in C1. split; [split; eauto|]. cbn [Nat.add].
      destruct (h_at _ _ _ _ HH i s Ei Ht) as [A _]. unfold Lib_Session.sizes_of. rewrite A, Eo. cbn [st_sizes].
      now rewrite Es. }
    exists m, ps, runs. split; [exact Ep|]. split; [exact H1|]. now rewrite H2, flat_concat.
  Qed.

  Lemma summary_described t ss objs (st : Store) b obj lines :
    (forall i s, nth_error ss i = Some s -> exists obj rep k, nth_error objs i = Some obj /\ Left k s obj rep) ->
    holds t ss objs st ->
    print_summary b obj (baseline_of o) (map shown (names_of o)) = Ok lines ->
    (forall p, list_at (st_sizes obj) p = flat_map (fun id => list_at (sizes_of st id) p) (places t 0 ss)) ->
    (forall p, list_at (st_ratios obj) p = flat_map (fun id => list_at (ratios_at st id) p) (places t 0 ss)) ->
    exists nb base, In nb (names_of o) /\ shown nb = baseline_of o /\ alone nb t (of_dir t ss) base /\
      Forall2 (fun n l => exists own, alone n t (of_dir t ss) own /\ l_proc l = shown n /\
        describes l (str_eqb (shown n) (baseline_of o)) own base) (names_of o) lines.
  Proof.
    intros HL HH E HS HR. apply print_summary_ok in E.
    assert (Hb : exists nb, shown nb = baseline_of o /\ In nb (names_of o)) by (apply in_map_iff in HB; exact HB).
    destruct Hb as (nb & Eb & Hnb). exists nb.
    exists (flat_map (fun id => list_at (sizes_of st id) (shown nb)) (places t 0 ss)).
    split; [exact Hnb|]. split; [exact Eb|]. split; [now apply (gather t ss objs)|].
    rewrite Eb, HS in *.
    set (base := flat_map (fun id => list_at (sizes_of st id) (baseline_of o)) (places t 0 ss)) in *.
    assert (HF : forall ns ls, incl ns (names_of o) ->
      Forall2 (fun p l => summary_line b obj (sum_sizes base) p = Ok l) (map shown ns) ls ->
      Forall2 (fun n l => exists own, alone n t (of_dir t ss) own /\ l_proc l = shown n /\
        describes l (str_eqb (shown n) (baseline_of o)) own base) ns ls).
    2:{ apply (HF _ _ (incl_refl _)). exact E. }
    clear E. induction ns as [|n ns IH]; intros ls Hi F; cbn [map] in F; inversion F as [|? l ? ls' E1 E2]; subst; constructor.
    2:{ apply IH; [|exact E2]. intros x Hx. apply Hi. now right. }
    assert (Hin : In n (names_of o)) by (apply Hi; now left).
    exists (flat_map (fun id => list_at (sizes_of st id) (shown n)) (places t 0 ss)).
    split; [now apply (gather t ss objs)|].
    (* the ratios *)
    assert (Hpt : forall i, In i (places t 0 ss) ->
       list_at (ratios_at st i) (shown n) = ratios_spec (str_eqb (shown n) (baseline_of o)) (list_at (sizes_of st i) (shown n)) (list_at (sizes_of st i) (baseline_of o)) /\
       length (list_at (sizes_of st i) (shown n)) = length (list_at (sizes_of st i) (baseline_of o)) /\
       Forall positive (list_at (ratios_at st i) (shown n))).
    { intros i Hp. apply places_in in Hp. rewrite Nat.sub_0_r in Hp. destruct Hp as (_ & s & Ei & Ht).
      destruct (HL i s Ei) as (ob & rep & k & Eo & sizes & ratios & mism & lines' & -> & -> & Eps & _).
      destruct (session_facts St construct p_compress p_decompress ord Ho _ _ _ _ _ _ _ _ Eps HN HB) as (_ & _ & G & Fa).
      destruct (parse_of n Hin) as (m & ps & Ep & Es). destruct (parse_of nb Hnb) as (mb & pb & Epb & Esb).
      destruct (Fa n m ps Hin Ep) as (st0 & run & _ & _ & C3 & C4 & C5 & _).
      destruct (Fa nb mb pb Hnb Epb) as (stb & runb & _ & _ & B3 & B4 & _). rewrite <- Esb, Eb in B4. rewrite <- Es in C4, C5.
      destruct (h_at _ _ _ _ HH i s Ei Ht) as [A _]. unfold Lib_Session.sizes_of, Lib_Session.ratios_at. rewrite A, Eo. cbn [st_sizes st_ratios].
      split; [rewrite C4; exact C5|]. split; [rewrite C4, B4, !map_length; congruence|]. now apply good_at. }
    assert (Hrat : list_at (st_ratios obj) (shown n) = message_ratios (str_eqb (shown n) (baseline_of o))
        (flat_map (fun id => list_at (sizes_of st id) (shown n)) (places t 0 ss)) base /\
        Forall positive (list_at (st_ratios obj) (shown n))).
    { rewrite HR. split.
      - unfold base. change message_ratios with ratios_spec.
        destruct (ratios_spec_flat (str_eqb (shown n) (baseline_of o)) (fun id => list_at (sizes_of st id) (shown n))
           (fun id => list_at (sizes_of st id) (baseline_of o)) (places t 0 ss)) as [<- _].
        { intros i Hp. apply Hpt, Hp. }
        revert Hpt. generalize (places t 0 ss). intros ids Hpt.
        induction ids as [|i ids IHi]; cbn [flat_map]; [reflexivity|]. rewrite IHi by (intros; apply Hpt; now right).
        f_equal. apply Hpt. now left.
      - apply Forall_forall. intros r Hr. apply in_flat_map in Hr. destruct Hr as (i & Hp & Hr).
        destruct (Hpt i Hp) as (_ & _ & G). rewrite Forall_forall in G. now apply G. }
    destruct Hrat as [Er Pr].
    destruct (summary_line_ok _ _ _ _ _ E1 Pr) as (L1 & L2 & L3 & L4 & L5 & L6 & L7 & L8 & L9).
    split; [exact L1|]. unfold describes. rewrite <- Er. rewrite L3, L2, HS, !sum_total. rewrite sum_total in L4.
    rewrite Forall_forall in L6, L8. pose proof Pr as Pr'. rewrite Forall_forall in Pr'.
    repeat (split; [first [reflexivity|assumption]|]). rewrite L9. now apply variance_ok.
  Qed.

  Lemma dir_single (s : stream_desc) : of_dir (sd_req s) [s] = [s].
  Proof. unfold of_dir. cbn [filter]. now rewrite Bool.eqb_reflx. Qed.

  (** The report of one session, if asked for. *)
  Lemma session_described k s obj rep lines : Left k s obj rep -> sr_lines rep = Some lines ->
    exists nb base, In nb (names_of o) /\ shown nb = baseline_of o /\ alone nb (sd_req s) [s] base /\
      Forall2 (fun n l => exists own, alone n (sd_req s) [s] own /\ l_proc l = shown n /\
        describes l (str_eqb (shown n) (baseline_of o)) own base) (names_of o) lines.
  Proof.
    intros HL El. pose proof HL as (sizes & ratios & mism & ls & Eo & Er & Eps & Ev).
    destruct (o_verbose o); [|subst rep; cbn [sr_lines] in El; congruence].
    destruct Ev as (l & -> & Ep). subst rep. cbn [sr_lines] in El. assert (l = lines) as -> by congruence.
    rewrite <- (dir_single s).
    apply (summary_described (sd_req s) [s] [obj] (mkStore [sd_msgs s] [obj]) true obj).
    - intros [|[|i]] s' E; try discriminate. cbn in E. assert (s' = s) as -> by congruence. exists obj.
      eexists _, k. split; [reflexivity|exact HL].
    - constructor; cbn [s_lists s_objs length]; [lia|lia|]. intros [|[|i]] s' E; try discriminate. cbn in E.
      assert (s' = s) as -> by congruence. auto.
    - exact Ep.
    - intros p. cbn [places]. rewrite Bool.eqb_reflx. cbn [flat_map]. now rewrite app_nil_r.
    - intros p. cbn [places]. rewrite Bool.eqb_reflx. cbn [flat_map]. now rewrite app_nil_r.
  Qed.
End Reports.

Lemma nth_error_firstn_lt {A} (l : list A) : forall n i, (i < n)%nat -> nth_error (firstn n l) i = nth_error l i.
Proof.
  induction l as [|x l IH]; intros [|n] [|i] H; cbn [firstn nth_error]; try lia; try reflexivity.
  apply IH. lia.
Qed.

(** ** Everything a run does *)
Section Whole.
  Variable St : Type.
  Variable construct : str -> bool -> list str -> res St.
  Variable p_compress : str -> St -> hdict -> str -> res (St * str).
  Variable p_decompress : str -> St -> str -> res (St * option hdict).
  Variable ord : list (str * str) -> list (str * str).
  Hypothesis Ho : is_order ord.
  Variable streamify : list exchange -> res (list stream_desc).
  Variable o : opts.
  Hypothesis HN : NoDup (map shown (names_of o)).
  Hypothesis HB : In (baseline_of o) (map shown (names_of o)).

  Notation Left := (session_left St construct p_compress p_decompress ord o (map shown (names_of o))).
  Notation Alone := (alone St construct p_compress p_decompress).

  (** The name a session's rows carry: see [C77_tsv]. *)
  Definition renamed (ss : list stream_desc) (i : nat) (obj : strm) : strm :=
    match nth_error ss i with
    | Some s => if (length (of_dir (sd_req s) ss) =? 1)%nat then total_named obj else obj
    | None => obj
    end.

  Lemma places_one t ss i : places t 0 ss = [i] <-> exists s, nth_error ss i = Some s /\ sd_req s = t /\ length (of_dir t ss) = 1%nat.
  Proof.
    pose proof (places_length t ss 0) as PL. split.
    - intros E. assert (Hi : In i (places t 0 ss)) by (rewrite E; now left). apply places_in in Hi. rewrite Nat.sub_0_r in Hi.
      destruct Hi as (_ & s & E1 & E2). exists s. rewrite E in PL. cbn in PL. auto.
    - intros (s & E1 & E2 & E3). assert (Hi : In i (places t 0 ss)).
      { apply places_in. split; [lia|]. exists s. now rewrite Nat.sub_0_r. }
      rewrite E3 in PL. destruct (places t 0 ss) as [|x [|y l]]; try discriminate. destruct Hi as [->|[]]. reflexivity.
  Qed.

  Lemma run_ok files rep ss : run St construct p_compress p_decompress ord streamify o files = Ok rep ->
    all_sessions streamify files = Ok ss ->
    Forall (fun n => exists m ps a b, parse_spec n = Ok (m, ps) /\ construct m true ps = Ok a /\ construct m false ps = Ok b) (names_of o) /\
    exists objs, length objs = length ss /\ length (rep_sessions rep) = length ss /\
    (forall i s, nth_error ss i = Some s -> exists obj r, nth_error objs i = Some obj /\ nth_error (rep_sessions rep) i = Some r /\ Left i s obj r) /\
    (forall t, exists st b obj, holds t ss objs st /\
       let tr := if t then rep_req rep else rep_res rep in
       of_dir t ss <> [] /\ tr_name tr = lit "TOTAL" /\ tr_count tr = length (flat_map sd_msgs (of_dir t ss)) /\
       print_summary b obj (baseline_of o) (map shown (names_of o)) = Ok (tr_lines tr) /\
       (forall p, list_at (st_sizes obj) p = flat_map (fun id => list_at (sizes_of st id) p) (places t 0 ss)) /\
       (forall p, list_at (st_ratios obj) p = flat_map (fun id => list_at (ratios_at st id) p) (places t 0 ss))) /\
    (exists objs2, length objs2 = length ss /\ (forall i obj, nth_error objs i = Some obj -> nth_error objs2 i = Some (renamed ss i obj)) /\
      rep_tsv rep = if o_tsv o then Some (tsv_rows (map shown (names_of o)) objs2 0 0) else None).
  Proof.
    intros E Ess. unfold run in E. apply bind_ok in E as (procs & E1 & E). rewrite Ess in E. cbn [bind] in E.
    destruct (construct_all_ok St construct _ _ E1) as [-> HC].
    apply bind_ok in E as ([objs reps] & E2 & E). apply bind_ok in E as ([st1 req] & E3 & E). apply bind_ok in E as ([st2 rsp] & E4 & E).
    destruct (run_sessions_ok St construct p_compress p_decompress ord _ _ _ _ _ _ E2) as (L1 & L2 & HL).
    assert (Erep : rep = mkReport reps req rsp (if o_tsv o then Some (tsv_rows (map shown (names_of o)) (firstn (length ss) (s_objs st2)) 0 0) else None)) by congruence.
    clear E. subst rep. cbn [rep_sessions rep_req rep_res rep_tsv].
    assert (HP : proper ss objs).
    { intros i s Es. destruct (HL i s Es) as (obj & r & A & B & sizes & ratios & mism & lines & -> & _ & Eps & _).
      eexists. split; [exact A|]. cbn [st_msgs st_type st_name st_sizes st_ratios]. cbn [Nat.add].
      destruct (session_facts St construct p_compress p_decompress ord Ho _ _ _ _ _ _ _ _ Eps HN HB) as (D1 & D2 & _). auto. }
    set (st0 := mkStore (map sd_msgs ss) objs) in *.
    assert (H0 : forall t, holds t ss objs st0).
    { intros t. constructor; unfold st0; cbn [s_lists s_objs]; [apply map_length|lia|].
      intros i s Es _. split; [reflexivity|]. change (@nil (hdict * str)) with (sd_msgs (mkStream [] [] true)). rewrite map_nth.
      f_equal. now apply nth_error_nth. }
    destruct (print_total_ok o _ ss true objs st0 st1 req HP (H0 true) E3) as (A0 & A1 & A2 & (b1 & obj1 & A3 & A4 & A5) & A6 & A7 & A8 & A9).
    assert (H1 : holds false ss objs st1).
    { constructor; [rewrite A6; apply (h_lists _ _ _ _ (H0 false))|exact A7|]. intros i s Es Hs.
      destruct (h_at _ _ _ _ (H0 false) i s Es Hs) as [B1 B2]. split.
      - rewrite A8 by (apply nth_error_Some; congruence). destruct (list_eq_dec Nat.eq_dec (places true 0 ss) [i]) as [Ep|_]; [|exact B1].
        apply places_one in Ep. destruct Ep as (s' & C1 & C2 & _). congruence.
      - rewrite (A9 i s Es) by congruence. exact B2. }
    destruct (print_total_ok o _ ss false objs st1 st2 rsp HP H1 E4) as (C0 & C1 & C2 & (b2 & obj2 & C3 & C4 & C5) & C6 & C7 & C8 & C9).
    split; [exact HC|]. exists objs. split; [exact L1|]. split; [exact L2|]. split; [intros i s Es; exact (HL i s Es)|]. split.
    { intros [|]; [exists st0, b1, obj1|exists st1, b2, obj2]; cbv zeta; auto 10. }
    exists (firstn (length ss) (s_objs st2)). split; [rewrite firstn_length; lia|]. split; [|reflexivity].
    intros i obj Ei. assert (Hi : (i < length ss)%nat) by (rewrite <- L1; apply nth_error_Some; congruence).
    rewrite nth_error_firstn_lt by exact Hi. rewrite C8, A8 by exact Hi. unfold st0. cbn [s_objs]. rewrite Ei.
    unfold renamed. destruct (nth_error ss i) as [s|] eqn:Es.
    2:{ apply nth_error_None in Es. lia. }
    destruct (list_eq_dec Nat.eq_dec (places true 0 ss) [i]) as [Ep|Ep]; destruct (list_eq_dec Nat.eq_dec (places false 0 ss) [i]) as [Ep'|Ep'].
    - apply places_one in Ep, Ep'. destruct Ep as (s1 & B1 & B2 & _), Ep' as (s2 & B3 & B4 & _). congruence.
    - apply places_one in Ep. destruct Ep as (s1 & B1 & B2 & B3). assert (s1 = s) as -> by congruence. rewrite B2, B3. reflexivity.
    - apply places_one in Ep'. destruct Ep' as (s1 & B1 & B2 & B3). assert (s1 = s) as -> by congruence. rewrite B2, B3. reflexivity.
    - destruct (Nat.eqb_spec (length (of_dir (sd_req s) ss)) 1) as [El|El]; [|reflexivity].
      exfalso. destruct (sd_req s) eqn:Ht; [apply Ep|apply Ep']; apply places_one; exists s; rewrite ?Ht; auto.
  Qed.
End Whole.

(** ** The rows of the TSV files *)

Lemma number_rows_spec name rows : forall k,
  map r_num (number_rows k name rows) = seq (S k) (length rows) /\
  map r_name (number_rows k name rows) = repeat name (length rows) /\
  map r_sizes (number_rows k name rows) = rows.
Proof.
  induction rows as [|r rows IH]; intros k; cbn [number_rows map length seq repeat]; [auto|].
  destruct (IH (S k)) as (-> & -> & ->). auto.
Qed.

Lemma fold_min_same n : forall l a, Forall (fun c : list N => length c = n) l -> a = n -> fold_left Nat.min (map (@length N) l) a = n.
Proof.
  induction l as [|c l IH]; intros a H Ha; cbn [map fold_left]; [exact Ha|]. inversion H; subst. apply IH; [assumption|]. lia.
Qed.

Lemma seq_nth_self l : map (fun i => nth i l 0) (seq 0 (length l)) = l.
Proof.
  induction l as [|x l IH]; [reflexivity|]. cbn [length seq map nth]. f_equal. rewrite <- seq_shift, map_map. exact IH.
Qed.

Lemma zip_spec n cols : cols <> [] -> Forall (fun c : list N => length c = n) cols ->
  length (zip_columns cols) = n /\ Forall (fun r => length r = length cols) (zip_columns cols) /\
  forall j c, nth_error cols j = Some c -> map (fun r => nth j r 0) (zip_columns cols) = c.
Proof.
  intros Hne HF. destruct cols as [|c cs]; [congruence|]. unfold zip_columns. inversion HF as [|? ? H1 H2]; subst.
  rewrite (fold_min_same (length c)) by auto. split; [now rewrite map_length, seq_length|]. split.
  - apply Forall_forall. intros r Hr. apply in_map_iff in Hr as (i & <- & _). now rewrite map_length.
  - intros j c' E. rewrite map_map. assert (Hl : length c' = length c).
    { rewrite Forall_forall in HF. apply HF. now apply nth_error_In in E. }
    rewrite <- Hl. etransitivity; [|apply seq_nth_self]. apply map_ext. intros i.
    assert (Hj : (j < length (c :: cs))%nat) by (apply nth_error_Some; congruence).
    pose proof (map_nth (fun l : list N => nth i l 0) (c :: cs) [] j) as M. cbv beta in M.
    rewrite (nth_indep _ 0 (nth i [] 0)) by (now rewrite map_length). etransitivity; [exact M|].
    f_equal. now apply nth_error_nth.
Qed.

Definition rows_for (procs : list str) (s : strm) : list (list N) :=
  zip_columns (map (fun p => list_at (st_sizes s) p) procs).

Lemma seq_shape a n m : seq a n ++ seq (a + n) m = seq a (n + m).
Proof. now rewrite seq_app. Qed.

Lemma tsv_rows_spec procs : forall objs nq ns q a, tsv_rows procs objs nq ns = (q, a) ->
  let pick t := filter (fun s => Bool.eqb (st_type s) t) objs in
  let good t k rows :=
    map r_num rows = seq (S k) (length rows) /\
    map r_name rows = flat_map (fun s => repeat (st_name s) (length (rows_for procs s))) (pick t) /\
    map r_sizes rows = flat_map (rows_for procs) (pick t) in
  good true nq q /\ good false ns a.
Proof.
  induction objs as [|s objs IH]; intros nq ns q a E; cbn [tsv_rows] in E.
  - assert (q = [] /\ a = []) as [-> ->] by (split; congruence). cbv zeta. cbn. auto.
  - unfold print_tsv in E. fold (rows_for procs s) in E.
    change (zip_columns (map (fun p => match dget (st_sizes s) p with Some l => l | None => [] end) procs)) with (rows_for procs s) in E.
    destruct (st_type s) eqn:Et.
    + destruct (tsv_rows procs objs (nq + length (rows_for procs s)) ns) as [q' a'] eqn:E'.
      assert (q = number_rows nq (st_name s) (rows_for procs s) ++ q' /\ a = a') as [-> ->] by (split; congruence). clear E.
      destruct (IH _ _ _ _ E') as [(A1 & A2 & A3) (B1 & B2 & B3)]. cbv zeta. cbn [filter]. rewrite Et. cbn [Bool.eqb].
      destruct (number_rows_spec (st_name s) (rows_for procs s) nq) as (C1 & C2 & C3).
      split; [|auto]. rewrite !map_app, C1, C2, C3, A1. cbn [flat_map]. rewrite <- A2, <- A3. split; [|auto].
      rewrite app_length. assert (length (number_rows nq (st_name s) (rows_for procs s)) = length (rows_for procs s)) as ->.
      { rewrite <- C3 at 2. now rewrite map_length. }
      rewrite <- seq_shape. reflexivity.
    + destruct (tsv_rows procs objs nq (ns + length (rows_for procs s))) as [q' a'] eqn:E'.
      assert (a = number_rows ns (st_name s) (rows_for procs s) ++ a' /\ q = q') as [-> ->] by (split; congruence). clear E.
      destruct (IH _ _ _ _ E') as [(A1 & A2 & A3) (B1 & B2 & B3)]. cbv zeta. cbn [filter]. rewrite Et. cbn [Bool.eqb].
      destruct (number_rows_spec (st_name s) (rows_for procs s) ns) as (C1 & C2 & C3).
      split; [auto|]. rewrite !map_app, C1, C2, C3, B1. cbn [flat_map]. rewrite <- B2, <- B3. split; [|auto].
      rewrite app_length. assert (length (number_rows ns (st_name s) (rows_for procs s)) = length (rows_for procs s)) as ->.
      { rewrite <- C3 at 2. now rewrite map_length. }
      rewrite <- seq_shape. reflexivity.
Qed.

(** Objects in step with the sessions. *)
Lemma step_filter {B} (R : stream_desc -> B -> Prop) (ty : B -> bool) t ss bs :
  Forall2 R ss bs -> (forall s b, R s b -> ty b = sd_req s) ->
  Forall2 R (of_dir t ss) (filter (fun b => Bool.eqb (ty b) t) bs).
Proof.
  intros H HT. induction H as [|s b ss bs H1 H2 IH]; [constructor|]. unfold of_dir. cbn [filter]. rewrite (HT s b H1).
  destruct (Bool.eqb (sd_req s) t); [constructor|]; assumption.
Qed.

Lemma forall2_nth {A B} (R : A -> B -> Prop) : forall l m, length m = length l ->
  (forall i x, nth_error l i = Some x -> exists y, nth_error m i = Some y /\ R x y) -> Forall2 R l m.
Proof.
  induction l as [|x l IH]; intros [|y m] HL H; cbn in HL; try lia; [constructor|].
  constructor.
  - destruct (H O x eq_refl) as (y' & E & HR). cbn in E. congruence.
  - apply IH; [lia|]. intros i x' Hx. exact (H (S i) x' Hx).
Qed.

Lemma forall2_impl {A B} (R S : A -> B -> Prop) l m : (forall a b, R a b -> S a b) -> Forall2 R l m -> Forall2 S l m.
Proof. intros H F. induction F; constructor; auto. Qed.
