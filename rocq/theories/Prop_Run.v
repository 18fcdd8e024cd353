(** * Properties C77 - C79: what the tool reports, and when.

    [total], [describes], [alone] and the rest of the specification are at
    the top of Run_Report.v; [shown] is the display name of an option
    (Run_Proofs.v), [of_dir t] picks the streams of one direction. *)
From Coq Require Import String List NArith ZArith QArith Bool Lia Permutation.
From Verif Require Import PyBase PyStr Lib_Model Lib_Spec Lib_Proofs Lib_Session Prop_Lib Run_Model Run_Proofs Run_Total Run_Report Run_Complete.
Import ListNotations.
Open Scope N_scope.
Open Scope py_scope.

(** ** The options and the streams.

    The processors are the given ones; the baseline, http1 unless given, is
    put in front if it is not among them.  The streams of all files come one
    after the other. *)
Theorem C77_options : forall o,
  (o_baseline o = None -> baseline_of o = lit "http1") /\ (forall b, o_baseline o = Some b -> baseline_of o = b) /\
  (In (baseline_of o) (o_names o) -> names_of o = o_names o) /\
  (~ In (baseline_of o) (o_names o) -> names_of o = baseline_of o :: o_names o).
Proof.
  intros o. unfold names_of. split; [intros E; unfold baseline_of; now rewrite E|].
  split; [intros b E; unfold baseline_of; now rewrite E|]. generalize (baseline_of o). intros b.
  split; intros H; destruct (mem_str_spec b (o_names o)) as [E|E]; try reflexivity; contradiction.
Qed.
Print Assumptions C77_options.

Theorem C77_streams : forall streamify files ss, all_sessions streamify files = Ok ss <->
  exists sss, Forall2 (fun f s => streamify f = Ok s) files sss /\ ss = concat sss.
Proof.
  intros streamify. induction files as [|f files IH]; intros ss; cbn [all_sessions].
  - split; [intros E; exists []; split; [constructor|cbn; congruence]|intros (sss & H & ->); inversion H; reflexivity].
  - split.
    + intros E. apply bind_ok in E as (s & E1 & E). apply bind_ok in E as (ss' & E2 & E).
      destruct (proj1 (IH ss') E2) as (sss & H & ->). exists (s :: sss). split; [now constructor|]. cbn [concat]. congruence.
    + intros (sss & H & ->). inversion H as [|? s ? sss' E1 H2]; subst. rewrite E1. cbn [bind].
      rewrite (proj2 (IH (concat sss'))); [reflexivity|eauto].
Qed.
Print Assumptions C77_streams.

Example C77_options_example : names_of (mkOpts false false [lit "spdy3"] None false) = [lit "http1"; lit "spdy3"] /\
  names_of (mkOpts false false [lit "spdy3"; lit "http1"] None false) = [lit "spdy3"; lit "http1"].
Proof. split; vm_compute; reflexivity. Qed.

(** ** C77: the reported numbers.

    The TOTAL of a direction counts its messages, and each option has one
    line there, in order, made from what the option's processor gives on
    every stream of that direction, started afresh for each of them. *)
Theorem C77_totals : forall St construct p_compress p_decompress ord streamify o files rep ss,
  is_order ord -> NoDup (map shown (names_of o)) -> In (baseline_of o) (map shown (names_of o)) ->
  run St construct p_compress p_decompress ord streamify o files = Ok rep ->
  all_sessions streamify files = Ok ss ->
  forall t : bool, let tr := if t then rep_req rep else rep_res rep in
    tr_name tr = lit "TOTAL" /\ tr_count tr = length (flat_map sd_msgs (of_dir t ss)) /\
    exists nb base, In nb (names_of o) /\ shown nb = baseline_of o /\
      alone St construct p_compress p_decompress nb t (of_dir t ss) base /\
      Forall2 (fun n l => exists own,
        alone St construct p_compress p_decompress n t (of_dir t ss) own /\ length own = tr_count tr /\
        l_proc l = shown n /\ describes l (str_eqb (shown n) (baseline_of o)) own base) (names_of o) (tr_lines tr).
Proof.
  intros St construct p_compress p_decompress ord streamify o files rep ss Ho HN HB E Ess t.
  destruct (run_ok St construct p_compress p_decompress ord Ho streamify o HN HB files rep ss E Ess)
    as (HC & objs & L1 & L2 & HL & HT & _).
  destruct (HT t) as (st & b & obj & HH & _ & T1 & T2 & T3 & T4 & T5). cbv zeta. split; [exact T1|]. split; [exact T2|].
  assert (HL' : forall i s, nth_error ss i = Some s -> exists ob r k, nth_error objs i = Some ob /\
     session_left St construct p_compress p_decompress ord o (map shown (names_of o)) k s ob r).
  { intros i s Es. destruct (HL i s Es) as (ob & r & A1 & A2 & A3). eauto. }
  destruct (summary_described St construct p_compress p_decompress ord Ho o HN HB HC t ss objs st b obj _ HL' HH T3 T4 T5)
    as (nb & base & B1 & B2 & B3 & B4).
  exists nb, base. split; [exact B1|]. split; [exact B2|]. split; [exact B3|].
  eapply forall2_impl; [|exact B4]. intros n l (own & A1 & A2 & A3). exists own. split; [exact A1|]. split; [|auto].
  rewrite T2. now apply (alone_length St construct p_compress p_decompress n t).
Qed.
Print Assumptions C77_totals.

(** The sessions are reported in order, with the same kind of lines when
    the verbosity asks for them. *)
Theorem C77_sessions : forall St construct p_compress p_decompress ord streamify o files rep ss,
  is_order ord -> NoDup (map shown (names_of o)) -> In (baseline_of o) (map shown (names_of o)) ->
  run St construct p_compress p_decompress ord streamify o files = Ok rep ->
  all_sessions streamify files = Ok ss ->
  Forall2 (fun s r => sr_name r = sd_name s /\ sr_count r = length (sd_msgs s) /\
    (sr_lines r = None <-> o_verbose o = false) /\
    forall lines, sr_lines r = Some lines ->
      exists nb base, In nb (names_of o) /\ shown nb = baseline_of o /\
        alone St construct p_compress p_decompress nb (sd_req s) [s] base /\
        Forall2 (fun n l => exists own,
          alone St construct p_compress p_decompress n (sd_req s) [s] own /\
          l_proc l = shown n /\ describes l (str_eqb (shown n) (baseline_of o)) own base) (names_of o) lines)
    ss (rep_sessions rep).
Proof.
  intros St construct p_compress p_decompress ord streamify o files rep ss Ho HN HB E Ess.
  destruct (run_ok St construct p_compress p_decompress ord Ho streamify o HN HB files rep ss E Ess)
    as (HC & objs & L1 & L2 & HL & _).
  apply forall2_nth; [exact L2|]. intros i s Es. destruct (HL i s Es) as (obj & r & A1 & A2 & A3).
  exists r. split; [exact A2|]. pose proof A3 as (sizes & ratios & mism & lines & _ & -> & _ & Ev). cbn [sr_name sr_count sr_lines].
  split; [reflexivity|]. split; [reflexivity|]. split.
  - destruct (o_verbose o); [destruct Ev as (l & -> & _)|subst lines]; split; congruence.
  - intros l El. eapply session_described; eauto.
Qed.
Print Assumptions C77_sessions.

(** The TSV files: rows numbered from 1, one for each message of the
    direction, in the order of the sessions, the sizes in the order of the
    options.  Column 2 names the stream; unless the direction has only one
    stream: then it says TOTAL. *)
Definition tsv_name (ss : list stream_desc) (s : stream_desc) : str :=
  if (length (of_dir (sd_req s) ss) =? 1)%nat then lit "TOTAL" else sd_name s.

Theorem C77_tsv : forall St construct p_compress p_decompress ord streamify o files rep ss,
  is_order ord -> NoDup (map shown (names_of o)) -> In (baseline_of o) (map shown (names_of o)) ->
  run St construct p_compress p_decompress ord streamify o files = Ok rep ->
  all_sessions streamify files = Ok ss ->
  (o_tsv o = false -> rep_tsv rep = None) /\
  (o_tsv o = true -> exists rows : bool -> list row, rep_tsv rep = Some (rows true, rows false) /\ forall t,
     map r_num (rows t) = seq 1 (length (flat_map sd_msgs (of_dir t ss))) /\
     map r_name (rows t) = flat_map (fun s => repeat (tsv_name ss s) (length (sd_msgs s))) (of_dir t ss) /\
     Forall (fun r => length (r_sizes r) = length (names_of o)) (rows t) /\
     forall j n, nth_error (names_of o) j = Some n ->
       alone St construct p_compress p_decompress n t (of_dir t ss) (map (fun r => nth j (r_sizes r) 0) (rows t))).
Proof.
  intros St construct p_compress p_decompress ord streamify o files rep ss Ho HN HB E Ess.
  destruct (run_ok St construct p_compress p_decompress ord Ho streamify o HN HB files rep ss E Ess)
    as (HC & objs & L1 & L2 & HL & _ & objs2 & L3 & HR & HT).
  split; intros Htsv; rewrite Htsv in HT; [exact HT|].
  set (procs := map shown (names_of o)) in *.
  destruct (tsv_rows procs objs2 0 0) as [q a] eqn:Er. exists (fun t : bool => if t then q else a). split; [exact HT|].
  set (R := fun (s : stream_desc) (ob : strm) => st_type ob = sd_req s /\ st_name ob = tsv_name ss s /\
     exists sizes ratios mism, st_sizes ob = sizes /\
       process_session St construct p_compress p_decompress ord (o_debug o) (baseline_of o) (names_of o) (sd_req s) (sd_msgs s) = Ok (sizes, ratios, mism)).
  assert (HF : Forall2 R ss objs2).
  { apply forall2_nth; [exact L3|]. intros i s Es. destruct (HL i s Es) as (obj & r & A1 & _ & sizes & ratios & mism & lines & -> & _ & Ep & _).
    rewrite (HR i _ A1). eexists. split; [reflexivity|]. unfold renamed, R, tsv_name. rewrite Es.
    destruct (length (of_dir (sd_req s) ss) =? 1)%nat; cbn [total_named st_type st_name st_sizes]; eauto 10. }
  assert (HK : forall s ob, R s ob -> length (rows_for procs ob) = length (sd_msgs s) /\
     Forall (fun r => length r = length (names_of o)) (rows_for procs ob) /\
     forall j n, nth_error (names_of o) j = Some n -> exists m ps st run, parse_spec n = Ok (m, ps) /\
       construct m (sd_req s) ps = Ok st /\ solo_run St p_compress p_decompress m st (sd_msgs s) run /\
       length run = length (sd_msgs s) /\ map (fun r => nth j r 0) (rows_for procs ob) = map fst run).
  { intros s ob (_ & _ & sizes & ratios & mism & Es & Ep).
    destruct (session_facts St construct p_compress p_decompress ord Ho _ _ _ _ _ _ _ _ Ep HN HB) as (_ & _ & _ & F).
    assert (Hcol : forall n, In n (names_of o) -> exists m ps st run, parse_spec n = Ok (m, ps) /\
       construct m (sd_req s) ps = Ok st /\ solo_run St p_compress p_decompress m st (sd_msgs s) run /\
       length run = length (sd_msgs s) /\ list_at (st_sizes ob) (shown n) = map fst run).
    { intros n Hin. destruct (parse_of St construct o HC n Hin) as (m & ps & E1 & E2).
      destruct (F n m ps Hin E1) as (st & run & C1 & C2 & C3 & C4 & _). exists m, ps, st, run. rewrite Es, E2. auto. }
    destruct (zip_spec (length (sd_msgs s)) (map (fun p => list_at (st_sizes ob) p) procs)) as (Z1 & Z2 & Z3).
    - intros Z. apply map_eq_nil in Z. rewrite Z in HB. destruct HB.
    - apply Forall_forall. intros c Hc. apply in_map_iff in Hc as (p & <- & Hp). apply in_map_iff in Hp as (n & <- & Hn).
      destruct (Hcol n Hn) as (m & ps & st & run & _ & _ & _ & D1 & ->). now rewrite map_length.
    - split; [exact Z1|]. split.
      + eapply Forall_impl; [|exact Z2]. intros r Hr. cbv beta in Hr. rewrite Hr. unfold procs. now rewrite !map_length.
      + intros j n Hj. destruct (Hcol n (nth_error_In _ _ Hj)) as (m & ps & st & run & D1 & D2 & D3 & D4 & D5).
        exists m, ps, st, run. repeat (split; [assumption|]). unfold rows_for. rewrite <- D5. apply Z3.
        unfold procs. rewrite map_map. now apply map_nth_error with (f := fun n => list_at (st_sizes ob) (shown n)). }
  destruct (tsv_rows_spec procs objs2 0 0 q a Er) as (GT & GF).
  intros t. set (rows := if t then q else a).
  assert (G : map r_num rows = seq 1 (length rows) /\
     map r_name rows = flat_map (fun s => repeat (st_name s) (length (rows_for procs s))) (filter (fun s => Bool.eqb (st_type s) t) objs2) /\
     map r_sizes rows = flat_map (rows_for procs) (filter (fun s => Bool.eqb (st_type s) t) objs2)).
  { unfold rows. destruct t; assumption. }
  clear GT GF. destruct G as (G1 & G2 & G3).
  assert (HFt := step_filter R st_type t ss objs2 HF (fun s ob H => proj1 H)).
  assert (Hdir : Forall (fun s => sd_req s = t) (of_dir t ss)).
  { apply Forall_forall. intros s Hs. apply filter_In in Hs as [_ Hs]. now apply Bool.eqb_true_iff. }
  remember (of_dir t ss) as dss eqn:Ed. clear Ed.
  remember (filter (fun s => Bool.eqb (st_type s) t) objs2) as dobjs eqn:Eo. clear Eo.
  assert (Hlen : length rows = length (flat_map sd_msgs dss)).
  { rewrite <- (map_length r_sizes), G3. clear -HFt HK. induction HFt as [|s ob dss dobjs H1 _ IH]; [reflexivity|].
    cbn [flat_map]. rewrite !app_length, IH. destruct (HK s ob H1) as [-> _]. reflexivity. }
  split; [now rewrite G1, Hlen|]. split.
  { rewrite G2. clear -HFt HK. induction HFt as [|s ob dss dobjs H1 _ IH]; [reflexivity|]. cbn [flat_map].
    rewrite IH. destruct (HK s ob H1) as [-> _]. destruct H1 as (_ & -> & _). reflexivity. }
  split.
  { apply Forall_forall. intros r Hr. apply (in_map r_sizes) in Hr. rewrite G3 in Hr. apply in_flat_map in Hr as (ob & Hob & Hr).
    assert (exists s, R s ob) as (s & Hs).
    { clear -HFt Hob. induction HFt as [|s ob' dss dobjs H1 _ IH]; [destruct Hob|]. destruct Hob as [->|Hob]; eauto. }
    destruct (HK s ob Hs) as (_ & Hl & _). rewrite Forall_forall in Hl. now apply Hl. }
  intros j n Hj. rewrite <- (map_map r_sizes (fun r => nth j r 0)), G3.
  destruct (parse_of St construct o HC n (nth_error_In _ _ Hj)) as (m & ps & E1 & _).
  assert (exists runs, Forall2 (fun s run => length run = length (sd_msgs s) /\
        exists st, construct m t ps = Ok st /\ solo_run St p_compress p_decompress m st (sd_msgs s) run) dss runs /\
      map (fun r => nth j r 0) (flat_map (rows_for procs) dobjs) = map fst (concat runs)) as (runs & A1 & A2).
  2:{ exists m, ps, runs. auto. }
  clear -HFt HK Hdir E1 Hj. induction HFt as [|s ob dss dobjs H1 _ IH].
  - exists []. split; constructor.
  - inversion Hdir as [|? ? Ht Hd]; subst. destruct (IH Hd) as (runs & A1 & A2).
    destruct (HK s ob H1) as (_ & _ & F). destruct (F j n Hj) as (m' & ps' & st & run & D1 & D2 & D3 & D4 & D5).
    assert (m' = m /\ ps' = ps) as [-> ->] by (split; congruence).
    exists (run :: runs). split; [constructor; eauto|]. cbn [flat_map concat]. now rewrite !map_app, A2, D5.
Qed.
Print Assumptions C77_tsv.

(** The TSV names are not always the streams' names: with one stream per
    direction both files say TOTAL. *)
Definition toy_run := run N (fun _ _ _ => Ok 5) toy_compress toy_decompress (fun l => l).
Definition toy_opts := mkOpts true false [lit "cnt"] (Some (lit "id")) true.
Definition toy_exchange (h p : string) : exchange := ([(lit ":host", lit h); (lit ":path", lit p)], [(lit ":status", lit "200")]).

Theorem C77_tsv_names_refuted : exists files rep ss rows,
  toy_run streamify_host toy_opts files = Ok rep /\ all_sessions streamify_host files = Ok ss /\
  rep_tsv rep = Some rows /\ map r_name (fst rows) <> flat_map (fun s => repeat (sd_name s) (length (sd_msgs s))) (of_dir true ss).
Proof.
  exists [[toy_exchange "a" "/"]]. do 3 eexists.
  split; [vm_compute; reflexivity|]. split; [vm_compute; reflexivity|]. split; [vm_compute; reflexivity|]. vm_compute. discriminate.
Qed.
Print Assumptions C77_tsv_names_refuted.

(** Two hosts, three exchanges, two processors: "cnt" sends 5, then 6
    octets to each host, "id" the names and values. *)
Definition toy_files := [[toy_exchange "a" "/"; toy_exchange "b" "/"; toy_exchange "a" "/x"]].

Example C77_example : match toy_run streamify_host toy_opts toy_files with
  | Ok rep =>
      map (fun l => (l_proc l, l_size l, l_ratio l, l_min l, l_max l)) (tr_lines (rep_req rep)) =
        [(lit "id", 37, (37, 37), (1, 1), (1, 1)); (lit "cnt", 16, (16, 37), (5, 12), (6, 13))] /\
      map (fun r => (r_num r, r_name r, r_sizes r)) (match rep_tsv rep with Some rows => fst rows | None => [] end) =
        [(1%nat, lit "a", [12; 5]); (2%nat, lit "a", [13; 6]); (3%nat, lit "b", [12; 5])] /\
      map sr_count (rep_sessions rep) = [2%nat; 2%nat; 1%nat; 1%nat]
  | Err _ => False
  end.
Proof. vm_compute. repeat split; reflexivity. Qed.

Example C77_example_meets : is_order (fun l : list (str * str) => l) /\
  NoDup (map shown (names_of toy_opts)) /\ In (baseline_of toy_opts) (map shown (names_of toy_opts)) /\
  all_sessions streamify_host toy_files <> Err KeyError.
Proof.
  split; [intros l; apply Permutation_refl|]. split; [|split].
  - vm_compute. repeat constructor; cbn; intuition discriminate.
  - vm_compute. auto.
  - vm_compute. discriminate.
Qed.

(** ** C78: smallest <= overall <= largest.

    On every printed line the ratio of the totals lies between the smallest
    and the largest message ratio.  On the baseline's line they are all 1 and
    the deviation is 0. *)
Definition printed (rep : report) (l : line) : Prop :=
  In l (tr_lines (rep_req rep)) \/ In l (tr_lines (rep_res rep)) \/
  exists r ls, In r (rep_sessions rep) /\ sr_lines r = Some ls /\ In l ls.

Definition at_most (a b : ratio) : Prop := fst a * snd b <= fst b * snd a.

Lemma qsum_const_val l (x : Q) : Forall (fun y => (y == x)%Q) l -> (qsum l == inject_Z (Z.of_nat (length l)) * x)%Q.
Proof.
  induction l as [|y l IH]; intros H; cbn [qsum fold_right length].
  - change (inject_Z (Z.of_nat 0)) with 0%Q. ring.
  - inversion H as [|? ? H1 H2]; subst. fold (qsum l). rewrite IH, H1 by exact H2. rewrite Nat2Z.inj_succ. unfold Z.succ. rewrite inject_Z_plus. ring.
Qed.

Lemma base_variance {A} (own : list A) v : sample_variance (map (fun _ => (1, 1)) own) v -> (v == 0)%Q.
Proof.
  unfold sample_variance. rewrite map_length. destruct (Nat.leb_spec (length own) 1) as [Hl|Hl]; [intros ->; reflexivity|].
  intros (mean & H1 & H2). rewrite !map_map in *.
  set (n := inject_Z (Z.of_nat (length own))) in *.
  assert (Hn : ~ (n == 0)%Q). { unfold n, Qeq, inject_Z. cbn. lia. }
  assert (Hn1 : ~ (n - 1 == 0)%Q).
  { unfold n. intros Z. apply (proj2 (Qplus_inj_r _ _ 1)) in Z. 
    assert (E : (inject_Z (Z.of_nat (length own)) == 1)%Q) by (rewrite <- (Qplus_0_l 1), <- Z; ring).
    unfold Qeq, inject_Z in E. cbn in E. lia. }
  rewrite (qsum_const_val _ 1) in H1.
  2:{ apply Forall_forall. intros q Hq. apply in_map_iff in Hq as (? & <- & _). reflexivity. }
  rewrite map_length in H1. fold n in H1.
  assert (Hm : (mean == 1)%Q). { apply (Qmult_inj_l _ _ n Hn). exact H1. }
  rewrite (qsum_const_val _ 0) in H2.
  2:{ apply Forall_forall. intros q Hq. apply in_map_iff in Hq as (? & <- & _). rewrite Hm. reflexivity. }
  apply (Qmult_inj_l _ _ (n - 1) Hn1). rewrite H2. ring.
Qed.

Lemma described_between l isb own base : describes l isb own base -> length own = length base -> (isb = true -> own = base) ->
  at_most (l_min l) (l_ratio l) /\ at_most (l_ratio l) (l_max l) /\
  (isb = true -> l_ratio l = (l_size l, l_size l) /\ l_min l = (1, 1) /\ l_max l = (1, 1) /\ (l_var l == 0)%Q).
Proof.
  intros (D1 & D2 & D3 & D4 & D5 & D6 & D7 & D8 & D9) HL HB.
  assert (at_most (l_min l) (l_ratio l) /\ at_most (l_ratio l) (l_max l)) as [A1 A2].
  { rewrite D2, <- !sum_total. unfold message_ratios in *. destruct isb.
    - assert (own = base) as -> by auto. apply in_map_iff in D4 as (? & E1 & _). apply in_map_iff in D6 as (? & E2 & _).
      rewrite <- E1, <- E2. unfold at_most. cbn [fst snd]. lia.
    - assert (F : map fst (combine own base) = own /\ map snd (combine own base) = base).
      { clear -HL. revert base HL. induction own as [|a own IH]; intros [|b base] HL; try discriminate; [auto|].
        cbn in HL. cbn [combine map fst snd]. destruct (IH base) as [-> ->]; [lia|]. auto. }
      destruct F as [F1 F2].
      pose proof (mediant (l_min l) (combine own base)) as M1. pose proof (mediant_max (l_max l) (combine own base)) as M2.
      rewrite F1, F2 in M1, M2. split; [apply M1|apply M2]; apply Forall_forall; assumption. }
  split; [exact A1|]. split; [exact A2|]. intros ->. unfold message_ratios in *.
  assert (own = base) as -> by auto. apply in_map_iff in D4 as (? & E1 & _). apply in_map_iff in D6 as (? & E2 & _).
  repeat split; try congruence. eapply base_variance. exact D9.
Qed.

Lemma nodup_map_inj {A B} (f : A -> B) l x y : NoDup (map f l) -> In x l -> In y l -> f x = f y -> x = y.
Proof.
  induction l as [|a l IH]; intros ND Hx Hy E; [destruct Hx|]. cbn [map] in ND. inversion ND as [|? ? Hn ND']; subst.
  destruct Hx as [->|Hx], Hy as [->|Hy]; auto.
  - exfalso. apply Hn. rewrite E. now apply in_map.
  - exfalso. apply Hn. rewrite <- E. now apply in_map.
Qed.

Theorem C78_between : forall St construct p_compress p_decompress ord streamify o files rep,
  is_order ord -> NoDup (map shown (names_of o)) -> In (baseline_of o) (map shown (names_of o)) ->
  run St construct p_compress p_decompress ord streamify o files = Ok rep ->
  forall l, printed rep l ->
    at_most (l_min l) (l_ratio l) /\ at_most (l_ratio l) (l_max l) /\
    0 < snd (l_min l) /\ 0 < snd (l_ratio l) /\ 0 < snd (l_max l) /\
    (l_proc l = baseline_of o -> l_ratio l = (l_size l, l_size l) /\ l_min l = (1, 1) /\ l_max l = (1, 1) /\ (l_var l == 0)%Q).
Proof.
  intros St construct p_compress p_decompress ord streamify o files rep Ho HN HB E l Hl.
  assert (Ess : exists ss, all_sessions streamify files = Ok ss).
  { pose proof E as E'. unfold run in E'. apply bind_ok in E' as (procs & _ & E'). apply bind_ok in E' as (ss & E' & _). eauto. }
  destruct Ess as (ss & Ess).
  assert (G : forall t sss lines nb base, In nb (names_of o) -> shown nb = baseline_of o ->
     alone St construct p_compress p_decompress nb t sss base ->
     Forall2 (fun n l => exists own, alone St construct p_compress p_decompress n t sss own /\
        l_proc l = shown n /\ describes l (str_eqb (shown n) (baseline_of o)) own base) (names_of o) lines ->
     In l lines ->
     at_most (l_min l) (l_ratio l) /\ at_most (l_ratio l) (l_max l) /\
     0 < snd (l_min l) /\ 0 < snd (l_ratio l) /\ 0 < snd (l_max l) /\
     (l_proc l = baseline_of o -> l_ratio l = (l_size l, l_size l) /\ l_min l = (1, 1) /\ l_max l = (1, 1) /\ (l_var l == 0)%Q)).
  { intros t sss lines nb base Hnb Eb HA HF Hin.
    assert (exists n own, In n (names_of o) /\ alone St construct p_compress p_decompress n t sss own /\
      l_proc l = shown n /\ describes l (str_eqb (shown n) (baseline_of o)) own base) as (n & own & Hn & Ha & Hp & Hd).
    { clear -HF Hin. induction HF as [|n l' ns lines (own & A) _ IH]; [destruct Hin|]. destruct Hin as [->|Hin].
      - exists n, own. split; [now left|exact A].
      - destruct (IH Hin) as (n2 & own2 & B1 & B2). exists n2, own2. split; [now right|exact B2]. }
    assert (HLn : length own = length base).
    { rewrite (alone_length _ _ _ _ _ _ _ _ Ha), (alone_length _ _ _ _ _ _ _ _ HA). reflexivity. }
    destruct (described_between l _ own base Hd HLn) as (B1 & B2 & B3).
    { intros Hs. destruct (str_eqb_spec (shown n) (baseline_of o)) as [Es|]; [|discriminate].
      assert (n = nb) as -> by (eapply nodup_map_inj; eauto; congruence). eapply alone_unique; eauto. }
    pose proof Hd as (_ & D2 & D3 & D4 & _ & D6 & _ & D8 & _).
    split; [exact B1|]. split; [exact B2|]. split; [now apply D8|]. split; [rewrite D2; exact D3|]. split; [now apply D8|].
    intros Hb. apply B3. rewrite <- Hp, Hb. apply str_eqb_refl. }
  destruct Hl as [Hl|[Hl|(r & ls & Hr & Els & Hl)]].
  - destruct (C77_totals St construct p_compress p_decompress ord streamify o files rep ss Ho HN HB E Ess true)
      as (_ & _ & nb & base & B1 & B2 & B3 & B4). cbv zeta in *. apply (G true _ (tr_lines (rep_req rep)) nb base B1 B2 B3); [|exact Hl].
    eapply forall2_impl; [|exact B4]. intros n x (own & C1 & C2 & C3). exists own. auto.
  - destruct (C77_totals St construct p_compress p_decompress ord streamify o files rep ss Ho HN HB E Ess false)
      as (_ & _ & nb & base & B1 & B2 & B3 & B4). cbv zeta in *. apply (G false _ (tr_lines (rep_res rep)) nb base B1 B2 B3); [|exact Hl].
    eapply forall2_impl; [|exact B4]. intros n x (own & C1 & C2 & C3). exists own. auto.
  - pose proof (C77_sessions St construct p_compress p_decompress ord streamify o files rep ss Ho HN HB E Ess) as HF.
    assert (exists s, exists nb base, In nb (names_of o) /\ shown nb = baseline_of o /\
        alone St construct p_compress p_decompress nb (sd_req s) [s] base /\
        Forall2 (fun n l => exists own,
          alone St construct p_compress p_decompress n (sd_req s) [s] own /\
          l_proc l = shown n /\ describes l (str_eqb (shown n) (baseline_of o)) own base) (names_of o) ls) as (s & nb & base & B1 & B2 & B3 & B4).
    { clear -HF Hr Els. induction HF as [|s r' ss rs (_ & _ & _ & H) _ IH]; [destruct Hr|]. destruct Hr as [->|Hr]; [|auto].
      exists s. exact (H ls Els). }
    exact (G (sd_req s) [s] ls nb base B1 B2 B3 B4 Hl).
Qed.
Print Assumptions C78_between.

(** 37 against 16 octets: 16/37 lies between 5/12 and 6/13. *)
Example C78_example : at_most (5, 12) (16, 37) /\ at_most (16, 37) (6, 13) /\ ~ at_most (6, 13) (16, 37).
Proof. unfold at_most. cbn [fst snd]. lia. Qed.

(** ** C79: when the tool completes.

    Processors that never raise, all options usable, the baseline among them
    and never giving an empty output, no stopping on mismatches: then there
    are reports exactly if each direction has a message and, when every
    stream is reported on, no stream is empty. *)
Theorem C79_completes : forall St construct p_compress p_decompress ord streamify o files ss,
  is_order ord -> NoDup (map shown (names_of o)) -> In (baseline_of o) (map shown (names_of o)) ->
  o_debug o = false ->
  Forall (fun n => exists m ps, parse_spec n = Ok (m, ps) /\ forall t, exists st, construct m t ps = Ok st) (names_of o) ->
  (forall m st d h, exists st' c, p_compress m st d h = Ok (st', c)) ->
  (forall m st s, exists st' d, p_decompress m st s = Ok (st', d)) ->
  (forall n m ps st d h st' c, In n (names_of o) -> shown n = baseline_of o -> parse_spec n = Ok (m, ps) ->
     p_compress m st d h = Ok (st', c) -> c <> []) ->
  all_sessions streamify files = Ok ss ->
  (exists rep, run St construct p_compress p_decompress ord streamify o files = Ok rep) <->
  (forall t, exists s, In s ss /\ sd_req s = t /\ sd_msgs s <> []) /\
  (o_verbose o = true -> forall s, In s ss -> sd_msgs s <> []).
Proof.
  intros St construct p_compress p_decompress ord streamify o files ss Ho HN HB Hd HC Hcm Hdc Hbs Ess. split.
  - intros (rep & E). split.
    + intros t. destruct (C77_totals St construct p_compress p_decompress ord streamify o files rep ss Ho HN HB E Ess t)
        as (_ & T2 & nb & base & B1 & B2 & B3 & B4). cbv zeta in *.
      assert (Hne : flat_map sd_msgs (of_dir t ss) <> []).
      { intros Z. rewrite Z in T2. destruct (names_of o) as [|n ns]; [destruct B1|]. inversion B4 as [|? l ? ls (own & _ & Hl & _ & Hdsc) _]; subst.
        destruct Hdsc as (D1 & D2 & D3 & _). pose proof (alone_length _ _ _ _ _ _ _ _ B3) as HLb. rewrite Z in HLb.
        destruct base; [cbn in D3; lia|discriminate]. }
      destruct (flat_map sd_msgs (of_dir t ss)) as [|x l] eqn:Ef; [congruence|].
      assert (Hx : In x (flat_map sd_msgs (of_dir t ss))) by (rewrite Ef; now left).
      apply in_flat_map in Hx as (s & Hs & Hx). apply filter_In in Hs as [Hs1 Hs2]. apply (proj1 (Bool.eqb_true_iff _ _)) in Hs2.
      exists s. split; [exact Hs1|]. split; [exact Hs2|]. intros Z. rewrite Z in Hx. destruct Hx.
    + intros Hv s Hs. pose proof (C77_sessions St construct p_compress p_decompress ord streamify o files rep ss Ho HN HB E Ess) as HF.
      assert (exists r, (sr_lines r = None <-> o_verbose o = false) /\ forall lines, sr_lines r = Some lines ->
        exists nb base, In nb (names_of o) /\ shown nb = baseline_of o /\
        alone St construct p_compress p_decompress nb (sd_req s) [s] base /\
        Forall2 (fun n l => exists own,
          alone St construct p_compress p_decompress n (sd_req s) [s] own /\
          l_proc l = shown n /\ describes l (str_eqb (shown n) (baseline_of o)) own base) (names_of o) lines) as (r & R1 & R2).
      { clear -HF Hs. induction HF as [|s' r ss rs (_ & _ & H1 & H2) _ IH]; [destruct Hs|]. destruct Hs as [->|Hs]; [|auto]. exists r. auto. }
      destruct (sr_lines r) as [lines|] eqn:El; [|assert (o_verbose o = false) by tauto; congruence].
      destruct (R2 lines eq_refl) as (nb & base & B1 & B2 & B3 & B4). intros Z.
      destruct (names_of o) as [|n ns]; [destruct B1|]. inversion B4 as [|? l ? ls (own & _ & _ & Hdsc) _]; subst.
      destruct Hdsc as (D1 & D2 & D3 & _). pose proof (alone_length _ _ _ _ _ _ _ _ B3) as HLb. cbn [flat_map] in HLb. rewrite Z in HLb.
      destruct base; [cbn in D3; lia|discriminate].
  - intros [Hdir Hver]. unfold run.
    rewrite (construct_all_total St construct o HC _ (incl_refl _)). cbn [bind]. rewrite Ess. cbn [bind].
    destruct (run_sessions_total St construct p_compress p_decompress ord Ho o HN HB Hd HC Hcm Hdc Hbs ss 0) as (objs & reps & Er).
    { intros Hv. apply Forall_forall. auto. }
    rewrite Er. cbn [bind].
    destruct (run_sessions_ok St construct p_compress p_decompress ord _ _ _ _ _ _ Er) as (L1 & L2 & HL).
    set (st0 := mkStore (map sd_msgs ss) objs).
    assert (HP : proper ss objs).
    { intros i s Es. destruct (HL i s Es) as (obj & r & A & B & sizes & ratios & mism & lines & -> & _ & Eps & _).
      eexists. split; [exact A|]. cbn [st_msgs st_type st_name st_sizes st_ratios]. cbn [Nat.add].
      destruct (session_facts St construct p_compress p_decompress ord Ho _ _ _ _ _ _ _ _ Eps HN HB) as (D1 & D2 & _). auto. }
    assert (H0 : forall t, holds t ss objs st0).
    { intros t. constructor; unfold st0; cbn [s_lists s_objs]; [apply map_length|lia|].
      intros i s Es _. split; [reflexivity|]. change (@nil (hdict * str)) with (sd_msgs (mkStream [] [] true)). rewrite map_nth.
      f_equal. now apply nth_error_nth. }
    assert (HS : forall t st b obj, holds t ss objs st ->
       (forall p, list_at (st_sizes obj) p = flat_map (fun id => list_at (sizes_of st id) p) (places t 0 ss)) ->
       (forall p, list_at (st_ratios obj) p = flat_map (fun id => list_at (ratios_at st id) p) (places t 0 ss)) ->
       exists ls, print_summary b obj (baseline_of o) (map shown (names_of o)) = Ok ls).
    { intros t st b obj HH HS HR.
      assert (Hpl : forall i, In i (places t 0 ss) -> exists s sizes ratios mism, nth_error ss i = Some s /\
         sizes_of st i = sizes /\ ratios_at st i = ratios /\
         process_session St construct p_compress p_decompress ord (o_debug o) (baseline_of o) (names_of o) (sd_req s) (sd_msgs s) = Ok (sizes, ratios, mism)).
      { intros i Hi. apply places_in in Hi. rewrite Nat.sub_0_r in Hi. destruct Hi as (_ & s & Es & Ht).
        destruct (HL i s Es) as (ob & r & A & B & sizes & ratios & mism & lines & -> & _ & Eps & _).
        exists s, sizes, ratios, mism. destruct (h_at _ _ _ _ HH i s Es Ht) as [C _].
        unfold Lib_Session.sizes_of, Lib_Session.ratios_at. rewrite C, A. auto. }
      destruct (Hdir t) as (s & Hs & Ht & Hne). apply In_nth_error in Hs as (i & Hi).
      assert (Hip : In i (places t 0 ss)). { apply places_in. split; [lia|]. exists s. rewrite Nat.sub_0_r. auto. }
      assert (Hex : forall n, In n (names_of o) -> list_at (sizes_of st i) (shown n) <> [] /\ list_at (ratios_at st i) (shown n) <> []).
      { intros n Hn. destruct (Hpl i Hip) as (s' & sizes & ratios & mism & Es & E1 & E2 & Ep). assert (s' = s) as -> by congruence.
        destruct (session_lists St construct p_compress p_decompress ord Ho o HN HB HC Hbs _ _ _ _ _ Ep) as [_ P2]. destruct (P2 n Hn) as [Q1 Q2].
        rewrite E1, E2. split; intros Z; [rewrite Z in Q1|rewrite Z in Q2]; (destruct (sd_msgs s); [congruence|discriminate]). }
      assert (Hfm : forall A (f : nat -> list A) ids, In i ids -> f i <> [] -> flat_map f ids <> []).
      { clear. intros A f ids Hin Hf Z. destruct (f i) as [|x l] eqn:Ef; [congruence|].
        assert (In x (flat_map f ids)) by (apply in_flat_map; exists i; rewrite Ef; split; [exact Hin|now left]).
        rewrite Z in H. destruct H. }
      apply summary_total.
      - rewrite HS. apply sum_pos.
        + apply in_map_iff in HB as (n & En & Hn). rewrite <- En. apply Hfm; [exact Hip|]. apply Hex, Hn.
        + apply Forall_forall. intros x Hx. apply in_flat_map in Hx as (j & Hj & Hx).
          destruct (Hpl j Hj) as (s' & sizes & ratios & mism & Es & E1 & E2 & Ep).
          destruct (session_lists St construct p_compress p_decompress ord Ho o HN HB HC Hbs _ _ _ _ _ Ep) as [P1 _].
          rewrite E1 in Hx. rewrite Forall_forall in P1. now apply P1.
      - intros n Hn. rewrite HS, HR. destruct (Hex n Hn). split; now apply Hfm. }
    assert (Hod : forall t, of_dir t ss <> []).
    { intros t Z. destruct (Hdir t) as (s & Hs & Ht & _). assert (Hi : In s (of_dir t ss)) by (apply filter_In; split; [exact Hs|now apply Bool.eqb_true_iff]).
      rewrite Z in Hi. destruct Hi. }
    destruct (print_total_total o (map shown (names_of o)) ss true objs st0 HP (H0 true) (Hod true)) as (st1 & req & E3).
    { intros b obj. apply HS, H0. }
    rewrite E3. cbn [bind].
    destruct (print_total_ok o _ ss true objs st0 st1 req HP (H0 true) E3) as (A0 & A1 & A2 & _ & A6 & A7 & A8 & A9).
    assert (H1 : holds false ss objs st1).
    { constructor; [rewrite A6; apply (h_lists _ _ _ _ (H0 false))|exact A7|]. intros i s Es Hs.
      destruct (h_at _ _ _ _ (H0 false) i s Es Hs) as [B1 B2]. split.
      - rewrite A8 by (apply nth_error_Some; congruence). destruct (list_eq_dec Nat.eq_dec (places true 0 ss) [i]) as [Ep|_]; [|exact B1].
        apply places_one in Ep. destruct Ep as (s' & C1 & C2 & _). congruence.
      - rewrite (A9 i s Es) by congruence. exact B2. }
    destruct (print_total_total o (map shown (names_of o)) ss false objs st1 HP H1 (Hod false)) as (st2 & rsp & E4).
    { intros b obj. apply HS, H1. }
    rewrite E4. cbn [bind]. eauto.
Qed.
Print Assumptions C79_completes.

(** With the shipped streamifiers, when every request has a :host: the
    grouping ones (host, public_suffix) need one exchange in all files
    together, all_one also needs no file to be empty if streams are
    reported. *)
Definition usable (St : Type) (construct : str -> bool -> list str -> res St) (p_compress : str -> St -> hdict -> str -> res (St * str))
  (p_decompress : str -> St -> str -> res (St * option hdict)) (o : opts) : Prop :=
  NoDup (map shown (names_of o)) /\ In (baseline_of o) (map shown (names_of o)) /\ o_debug o = false /\
  Forall (fun n => exists m ps, parse_spec n = Ok (m, ps) /\ forall t, exists st : St, construct m t ps = Ok st) (names_of o) /\
  (forall m (st : St) (d : hdict) (h : str), exists (st' : St) (c : str), p_compress m st d h = Ok (st', c)) /\
  (forall m (st : St) (s : str), exists (st' : St) (d : option hdict), p_decompress m st s = Ok (st', d)) /\
  (forall n m ps (st : St) (d : hdict) (h : str) st' c, In n (names_of o) -> shown n = baseline_of o -> parse_spec n = Ok (m, ps) ->
     p_compress m st d h = Ok (st', c) -> c <> []).

Definition all_hosts (files : list (list exchange)) : Prop :=
  Forall (Forall (fun x => dget (fst x) (lit ":host") <> None)) files.

Lemma group_total key sh : forall ms names reqs ress, Forall (fun x : exchange => dget (fst x) (lit ":host") <> None) ms ->
  exists x, group_loop key sh ms names reqs ress = Ok x.
Proof.
  induction ms as [|[rq rs] ms IH]; intros names reqs ress H; cbn [group_loop]; [eauto|].
  inversion H as [|? ? H1 H2]; subst. cbn [fst] in H1.
  unfold hdict in *. destruct (dget rq (lit ":host")); [|congruence]. now apply IH.
Qed.

Lemma grouped_sessions key sh : forall files, all_hosts files -> exists ss,
  all_sessions (group_streamify key sh) files = Ok ss /\ Forall (fun s => sd_msgs s <> []) ss /\
  forall t, ((exists s, In s ss /\ sd_req s = t) <-> exists f, In f files /\ f <> []).
Proof.
  induction files as [|f files IH]; intros H; cbn [all_sessions].
  - exists []. split; [reflexivity|]. split; [constructor|]. intros t. split; intros (x & [] & _) || intros (x & Hx & _); destruct Hx.
  - inversion H as [|? ? H1 H2]; subst. destruct (IH H2) as (ss & -> & A & B).
    destruct (group_total key sh f [] [] [] H1) as ([[names reqs] ress] & Eg).
    assert (Es : exists s1, group_streamify key sh f = Ok s1) by (unfold group_streamify; rewrite Eg; cbn [bind]; eauto).
    destruct Es as (s1 & Es). rewrite Es. cbn [bind]. exists (s1 ++ ss). split; [reflexivity|].
    destruct (C37_grouping_partitions _ _ _ _ Es) as (groups & -> & _ & HG & HP).
    split.
    + apply Forall_app. split; [|exact A]. apply Forall_forall. intros s Hs. apply in_flat_map in Hs as ([n xs] & Hg & Hs).
      rewrite Forall_forall in HG. destruct (HG _ Hg) as (Hx & _).
      destruct Hs as [<-|[<-|[]]]; cbn [sd_msgs]; intros Z; apply map_eq_nil in Z; exact (Hx Z).
    + intros t. split.
      * intros (s & Hs & Ht). apply in_app_or in Hs as [Hs|Hs].
        -- exists f. split; [now left|]. intros ->. apply in_flat_map in Hs as ([n xs] & Hg & Hs).
           rewrite Forall_forall in HG. destruct (HG _ Hg) as (Hx & _). apply Permutation_sym, Permutation_nil in HP.
           destruct xs as [|x xs]; [exfalso; now apply Hx|]. assert (Hi : In x (flat_map snd groups)) by (apply in_flat_map; exists (n, x :: xs); split; [exact Hg|now left]).
           rewrite HP in Hi. destruct Hi.
        -- destruct (proj1 (B t)) as (g & Hg & Hne); [eauto|]. exists g. split; [now right|exact Hne].
      * intros (g & [<-|Hg] & Hne).
        -- destruct groups as [|[n xs] groups].
           ++ apply Permutation_nil in HP. congruence.
           ++ cbn [flat_map app]. destruct t; eexists; (split; [|]); [now left|reflexivity|right; now left|reflexivity].
        -- destruct (proj2 (B t)) as (s & Hs & Ht); [eauto|]. exists s. split; [apply in_or_app; now right|exact Ht].
Qed.

Theorem C79_grouping : forall St construct p_compress p_decompress ord o key sh files,
  is_order ord -> usable St construct p_compress p_decompress o -> all_hosts files ->
  (exists rep, run St construct p_compress p_decompress ord (group_streamify key sh) o files = Ok rep) <->
  exists f, In f files /\ f <> [].
Proof.
  intros St construct p_compress p_decompress ord o key sh files Ho (U1 & U2 & U3 & U4 & U5 & U6 & U7) HA.
  destruct (grouped_sessions key sh files HA) as (ss & Ess & F & G).
  rewrite (C79_completes St construct p_compress p_decompress ord _ o files ss Ho U1 U2 U3 U4 U5 U6 U7 Ess).
  rewrite Forall_forall in F. split.
  - intros [H _]. destruct (H true) as (s & Hs & Ht & _). apply (G true). eauto.
  - intros H. split; [|auto]. intros t. destruct (proj2 (G t) H) as (s & Hs & Ht). exists s. auto.
Qed.
Print Assumptions C79_grouping.

Corollary C79_host : forall St construct p_compress p_decompress ord o files,
  is_order ord -> usable St construct p_compress p_decompress o -> all_hosts files ->
  (exists rep, run St construct p_compress p_decompress ord streamify_host o files = Ok rep) <->
  exists f, In f files /\ f <> [].
Proof. intros. now apply C79_grouping. Qed.
Print Assumptions C79_host.

Corollary C79_public_suffix : forall St construct p_compress p_decompress ord o psl files,
  is_order ord -> usable St construct p_compress p_decompress o -> all_hosts files ->
  (exists rep, run St construct p_compress p_decompress ord (streamify_public_suffix psl) o files = Ok rep) <->
  exists f, In f files /\ f <> [].
Proof. intros. now apply C79_grouping. Qed.
Print Assumptions C79_public_suffix.

Lemma all_one_total : forall ms rq rs, Forall (fun x : exchange => dget (fst x) (lit ":host") <> None) ms ->
  exists x, all_one_loop ms rq rs = Ok x.
Proof.
  induction ms as [|[a b] ms IH]; intros rq rs H; cbn [all_one_loop]; [eauto|].
  inversion H as [|? ? H1 H2]; subst. cbn [fst] in H1.
  unfold hdict in *. destruct (dget a (lit ":host")); [|congruence]. now apply IH.
Qed.

Lemma all_one_sessions : forall files, all_hosts files -> exists ss,
  all_sessions streamify_all_one files = Ok ss /\
  (forall t, ((exists s, In s ss /\ sd_req s = t /\ sd_msgs s <> []) <-> exists f, In f files /\ f <> [])) /\
  ((forall s, In s ss -> sd_msgs s <> []) <-> forall f, In f files -> f <> []).
Proof.
  induction files as [|f files IH]; intros H; cbn [all_sessions].
  - exists []. split; [reflexivity|]. split.
    + intros t. split; intros (x & Hx & _); destruct Hx.
    + split; intros _ x [].
  - inversion H as [|? ? H1 H2]; subst. destruct (IH H2) as (ss & -> & A & B).
    assert (Es : exists s1, streamify_all_one f = Ok s1).
    { unfold streamify_all_one. destruct (all_one_total f [] [] H1) as ([a b] & ->). cbn [bind]. eauto. }
    destruct Es as (s1 & Es). rewrite Es. cbn [bind]. eexists. split; [reflexivity|].
    destruct (C37_all_one _ _ Es) as (hosts & Hl & ->).
    assert (Hq : combine (map fst f) hosts <> [] <-> f <> []).
    { destruct f as [|x f], hosts as [|h hosts]; cbn in *; try discriminate; try lia; split; congruence. }
    assert (Hr : combine (map snd f) hosts <> [] <-> f <> []).
    { destruct f as [|x f], hosts as [|h hosts]; cbn in *; try discriminate; try lia; split; congruence. }
    cbn [app]. split.
    + intros t. split.
      * intros (s & [<-|[<-|Hs]] & Ht & Hne); cbn [sd_msgs] in Hne.
        -- exists f. split; [now left|now apply Hq].
        -- exists f. split; [now left|now apply Hr].
        -- destruct (proj1 (A t)) as (g & Hg & Hgn); [eauto|]. exists g. split; [now right|exact Hgn].
      * intros (g & [<-|Hg] & Hne).
        -- destruct t; eexists; split; [now left|split; [reflexivity|now apply Hq]|right; now left|split; [reflexivity|now apply Hr]].
        -- destruct (proj2 (A t)) as (s & Hs & Hs2); [eauto|]. exists s. split; [right; now right|exact Hs2].
    + split.
      * intros Hs g [<-|Hg].
        -- apply Hq. apply (Hs (mkStream (lit "all") (combine (map fst f) hosts) true)). now left.
        -- apply (proj1 B); [|exact Hg]. intros s Hin. apply Hs. right. now right.
      * intros Hf s [<-|[<-|Hs]]; cbn [sd_msgs].
        -- apply Hq, Hf. now left.
        -- apply Hr, Hf. now left.
        -- apply (proj2 B); [|exact Hs]. intros g Hg. apply Hf. now right.
Qed.

Theorem C79_all_one : forall St construct p_compress p_decompress ord o files,
  is_order ord -> usable St construct p_compress p_decompress o -> all_hosts files ->
  (exists rep, run St construct p_compress p_decompress ord streamify_all_one o files = Ok rep) <->
  (exists f, In f files /\ f <> []) /\ (o_verbose o = true -> forall f, In f files -> f <> []).
Proof.
  intros St construct p_compress p_decompress ord o files Ho (U1 & U2 & U3 & U4 & U5 & U6 & U7) HA.
  destruct (all_one_sessions files HA) as (ss & Ess & F & G).
  rewrite (C79_completes St construct p_compress p_decompress ord _ o files ss Ho U1 U2 U3 U4 U5 U6 U7 Ess).
  rewrite G. split; intros [H1 H2]; (split; [|exact H2]).
  - apply (F true), H1.
  - intros t. apply (F t), H1.
Qed.
Print Assumptions C79_all_one.

(** A usable configuration; what happens without messages. *)
Definition plain_compress (m : str) (st : N) (d : hdict) (host : str) : res (N * str) :=
  Ok (st + 1, 0 :: flat_map (fun kv => fst kv ++ snd kv) d).
Definition plain_run := run N (fun _ _ _ => Ok 5) plain_compress toy_decompress (fun l => l).

Example C79_usable : usable N (fun _ _ _ => Ok 5) plain_compress toy_decompress toy_opts /\ all_hosts toy_files.
Proof.
  split.
  - split; [|split; [|split; [|split; [|split; [|split]]]]].
    + vm_compute. repeat constructor; cbn; intuition discriminate.
    + vm_compute. auto.
    + reflexivity.
    + repeat constructor; eexists _, _; (split; [vm_compute; reflexivity|eauto]).
    + intros. eexists _, _. reflexivity.
    + intros. unfold toy_decompress. destruct (str_eqb m (lit "id")); eauto.
    + intros n m ps st d h st' c _ _ _ E. unfold plain_compress in E. intros ->. discriminate E.
  - repeat constructor; vm_compute; discriminate.
Qed.

Example C79_no_messages :
  plain_run streamify_host toy_opts [] = Err TypeError /\ plain_run streamify_host toy_opts [[]] = Err TypeError /\
  plain_run streamify_all_one toy_opts [[]] = Err ZeroDivisionError /\
  plain_run streamify_all_one (mkOpts false false [lit "cnt"] (Some (lit "id")) true) [[]; []] = Err KeyError /\
  plain_run streamify_all_one toy_opts [[toy_exchange "a" "/"]; []] = Err ZeroDivisionError.
Proof. repeat split; vm_compute; reflexivity. Qed.

(** The claim that it always completes. *)
Theorem C79_always_completes_refuted : exists files,
  usable N (fun _ _ _ => Ok 5) plain_compress toy_decompress toy_opts /\ all_hosts files /\
  forall rep, plain_run streamify_all_one toy_opts files <> Ok rep.
Proof.
  exists [[toy_exchange "a" "/"]; []]. split; [apply C79_usable|]. split.
  - repeat constructor. vm_compute. discriminate.
  - intros rep. destruct C79_no_messages as (_ & _ & _ & _ & ->). discriminate.
Qed.
Print Assumptions C79_always_completes_refuted.
