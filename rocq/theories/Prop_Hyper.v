(** C110: the codec hyper_hpack. *)
From Coq Require Import String List NArith ZArith Bool Lia.
From Verif Require Import PyBase PyStr PyMerge Lib_Model Lib_Spec Lib_Proofs Run_Model Prop_H1 Hyper_Model.
Import ListNotations.
Open Scope N_scope.
Open Scope py_scope.

(** ** When no message is processed there is no report *)

Definition no_sizes (s : strm) : Prop := st_sizes s = [].

Lemma update_nth_sizes n f : forall l, (forall o, no_sizes o -> no_sizes (f o)) -> Forall no_sizes l -> Forall no_sizes (update_nth n f l).
Proof.
  induction n as [|n IH]; intros [|o l] Hf H; inversion H; subst; cbn [update_nth]; constructor; auto.
Qed.

Lemma reduce_no_sizes M : forall ids (s : store M) acc s' n, Forall no_sizes (s_objs s) -> reduce_add M s acc ids = Ok (s', n) -> Forall no_sizes (s_objs s').
Proof.
  induction ids as [|i ids IH]; intros s acc s' n H E; cbn [reduce_add] in E.
  - assert (s = s') as <- by congruence. exact H.
  - apply bind_ok in E as ([s1 n1] & E1 & E). refine (IH _ _ _ _ _ E). unfold stream_add in E1.
    destruct (nth_error (s_objs s) acc) as [a|] eqn:A; [|discriminate]. destruct (nth_error (s_objs s) i) as [b|] eqn:B; [|discriminate].
    destruct (negb (Bool.eqb (st_type a) (st_type b))); [discriminate|]. cbv zeta in E1. injection E1 as <- _. cbn [s_objs].
    apply Forall_app. split; [exact H|]. constructor; [|constructor]. unfold no_sizes. cbn [st_sizes].
    rewrite Forall_forall in H. rewrite (H a (nth_error_In _ _ A)), (H b (nth_error_In _ _ B)). reflexivity.
Qed.

Section NoReport.
  Variable St : Type.
  Variable construct : str -> bool -> list str -> res St.
  Variable p_compress : str -> St -> hdict -> str -> res (St * str).
  Variable p_decompress : str -> St -> str -> res (St * option hdict).
  Variable ord : list (str * str) -> list (str * str).

  Lemma empty_sessions o procs : forall ss k objs reps, Forall (fun s => sd_msgs s = []) ss ->
    run_sessions St construct p_compress p_decompress ord o procs k ss = Ok (objs, reps) -> Forall no_sizes objs.
  Proof.
    induction ss as [|s ss IH]; intros k objs reps HF E; cbn [run_sessions] in E.
    - assert (objs = []) as -> by congruence. constructor.
    - inversion HF as [|? ? H1 H2]; subst. rewrite H1 in E. apply bind_ok in E as ([[sizes ratios] mism] & E1 & E).
      unfold process_session in E1. apply bind_ok in E1 as (ps & _ & E1). cbn [session_loop] in E1. assert (sizes = []) as -> by congruence.
      apply bind_ok in E as (lines & _ & E). apply bind_ok in E as ([objs' reps'] & E2 & E).
      assert (objs = mkStrm (sd_name s) k (sd_req s) [] ratios :: objs') as -> by congruence. constructor; [reflexivity|]. exact (IH _ _ _ H2 E2).
  Qed.

  Lemma no_summary d s b p procs : no_sizes s -> forall l, print_summary d s b (p :: procs) <> Ok l.
  Proof.
    intros H l E. unfold print_summary in E. rewrite H in E. apply bind_ok in E as (bs & E1 & E). cbn [summary_lines] in E.
    apply bind_ok in E as (x & E2 & _). unfold summary_line in E2. apply bind_ok in E2 as (y & _ & E2).
    assert (bs = []) as ->. { unfold lookup_list in E1. cbn [dget] in E1. destruct d; congruence. }
    discriminate.
  Qed.

  Lemma no_total o p procs ss t st : Forall no_sizes (s_objs st) -> forall r, print_total o (p :: procs) ss t st <> Ok r.
  Proof.
    intros H r E. unfold print_total in E. apply bind_ok in E as ([st1 n] & E1 & E). unfold total_stream in E1.
    destruct (places t 0 ss) as [|i ids]; [discriminate|]. apply bind_ok in E1 as ([st2 n2] & E2 & E1).
    apply reduce_no_sizes in E2; [|exact H]. injection E1 as <- <-. cbn [s_objs] in E.
    destruct (nth_error _ n2) as [obj|] eqn:En; [|discriminate]. apply bind_ok in E as (lines & E3 & _). revert E3. apply no_summary.
    apply nth_error_In in En. refine (proj1 (Forall_forall _ _) _ _ En). apply update_nth_sizes; [|exact E2]. intros x Hx. exact Hx.
  Qed.

  (** A run that ends well has processed a message, with each of its processors
      both ways. *)
  Lemma run_message streamify o files rep : run St construct p_compress p_decompress ord streamify o files = Ok rep ->
    exists q hdrs host procs procs' results mism,
      get_processors St construct q (names_of o) = Ok procs /\
      process_message St p_compress p_decompress ord (o_debug o) procs hdrs host [] [] = Ok (procs', results, mism).
  Proof.
    unfold run. intros E. apply bind_ok in E as (procs & Ep & E). apply bind_ok in E as (ss & Es & E). apply bind_ok in E as ([objs reps] & Er & E).
    destruct (Forall_dec (fun s => sd_msgs s = []) (fun s => ltac:(destruct (sd_msgs s); [now left|now right]) : {sd_msgs s = []} + {~ sd_msgs s = []}) ss) as [HF|HF].
    - exfalso. apply bind_ok in E as ([st req] & Et & _). revert Et.
      assert (exists p ps, procs = p :: ps) as (p & ps & ->).
      { unfold names_of in Ep. destruct (mem_str_spec (baseline_of o) (o_names o)) as [Hi|Hi].
        - destruct (o_names o) as [|n ns]; [destruct Hi|]. cbn [construct_all] in Ep. apply bind_ok in Ep as ([m q] & _ & Ep).
          apply bind_ok in Ep as (x & _ & Ep). apply bind_ok in Ep as (y & _ & Ep). apply bind_ok in Ep as (r & _ & Ep). exists (display_name m q), r. congruence.
        - cbn [construct_all] in Ep. apply bind_ok in Ep as ([m q] & _ & Ep).
          apply bind_ok in Ep as (x & _ & Ep). apply bind_ok in Ep as (y & _ & Ep). apply bind_ok in Ep as (r & _ & Ep). exists (display_name m q), r. congruence. }
      apply no_total. cbn [s_objs]. exact (empty_sessions _ _ _ _ _ _ HF Er).
    - clear E Es Ep. revert objs reps Er. generalize O. induction ss as [|s ss IH]; intros k objs reps E; [exfalso; apply HF; constructor|].
      cbn [run_sessions] in E. apply bind_ok in E as ([[sizes ratios] mism] & E1 & E). apply bind_ok in E as (lines & _ & E). apply bind_ok in E as ([objs' reps'] & E2 & _).
      destruct (sd_msgs s) as [|[hdrs host] msgs] eqn:Em.
      + refine (IH _ _ _ _ E2). intros H. apply HF. constructor; assumption.
      + unfold process_session in E1. apply bind_ok in E1 as (procs1 & Eg & E1). cbn [session_loop] in E1.
        apply bind_ok in E1 as ([[procs2 results] bad] & E3 & _). exists (sd_req s), hdrs, host, procs1, procs2, results, bad. auto.
  Qed.

  Lemma message_each dbg hdrs host : forall procs results mism r,
    process_message St p_compress p_decompress ord dbg procs hdrs host results mism = Ok r ->
    Forall (fun p => exists x, process_one St p_compress p_decompress ord dbg hdrs host p = Ok x) procs.
  Proof.
    induction procs as [|p procs IH]; intros results mism r E; [constructor|]. cbn [process_message] in E.
    apply bind_ok in E as ([[p' size] bad] & E1 & E). apply bind_ok in E as (x & E2 & _). constructor; [eauto|]. exact (IH _ _ _ E2).
  Qed.
End NoReport.

(** ** With hyper_hpack among the codecs no run ends with a report: whatever the
    package does, whatever the other codecs, the options and the files. *)
Theorem C110_no_report : forall E D e_new d_new encode decode St construct p_compress p_decompress ord streamify o files rep,
  (exists n params, In n (names_of o) /\ parse_spec n = Ok (lit "hyper_hpack", params)) ->
  run (St + (E * D)) (wh_construct E D e_new d_new St construct) (wh_compress E D encode St p_compress)
    (wh_decompress E D decode St p_decompress) ord streamify o files <> Ok rep.
Proof.
  intros E D e_new d_new encode decode St construct p_compress p_decompress ord streamify o files rep (n & params & Hn & Hp) R.
  destruct (run_message _ _ _ _ _ _ _ _ _ R) as (q & hdrs & host & procs & procs' & results & mism & G & M).
  apply message_each in M. clear R procs' results mism. revert procs G M. induction (names_of o) as [|n' ns IH]; intros procs G M; [destruct Hn|].
  cbn [get_processors] in G. apply bind_ok in G as ([m ps] & E1 & G). apply bind_ok in G as (st & E2 & G). apply bind_ok in G as (r & E3 & G).
  assert (procs = mkProc _ m (display_name m ps) st :: r) as -> by congruence. inversion M as [|? ? M1 M2]; subst.
  destruct Hn as [->|Hn]; [|exact (IH Hn _ E3 M2)].
  assert (m = lit "hyper_hpack") as -> by congruence. unfold wh_construct in E2. rewrite str_eqb_refl in E2. assert (st = inr (hh_new E D e_new d_new)) as -> by congruence.
  destruct M1 as (x & M1). unfold process_one in M1. cbn [p_mod p_st p_name] in M1. cbv zeta in M1.
  unfold wh_compress in M1. apply bind_ok in M1 as ([st1 c] & C1 & M1). apply bind_ok in C1 as ([h c1] & C2 & C1). assert (st1 = inr h) as -> by congruence.
  unfold wh_decompress, hh_checked in M1. destruct (hh_decompress E D decode h c) as [y|e]; discriminate.
Qed.
Print Assumptions C110_no_report.

(** ** The wrapper itself is sound: over a package whose decoder gives back the
    names and values of its encoder, each message comes back as the list of its
    headers in order, none of them marked sensitive; made into a dictionary it
    passes the harness's check. *)
Definition gives_back {E D} (e_new : E) (d_new : D) (encode : E -> list (str * str * bool) -> res (E * str))
  (decode : D -> str -> res (D * list (str * str))) : Prop :=
  exists R : E -> D -> Prop, R e_new d_new /\
    forall e d l, R e d -> exists e' out d', encode e l = Ok (e', out) /\ decode d out = Ok (d', map fst l) /\ R e' d'.

Fixpoint conversation {E D} (encode : E -> list (str * str * bool) -> res (E * str)) (decode : D -> str -> res (D * list (str * str)))
  (st : E * D) (msgs : list hdict) : res (list (list (str * str))) :=
  match msgs with
  | [] => Ok []
  | m :: ms =>
      let* (st, c) := hh_compress E D encode st m in
      let* (st, back) := hh_decompress E D decode st c in
      let* r := conversation encode decode st ms in
      Ok (back :: r)
  end.

Theorem C110_list : forall E D (e_new : E) (d_new : D) encode decode msgs, gives_back e_new d_new encode decode ->
  conversation encode decode (hh_new E D e_new d_new) msgs = Ok msgs.
Proof.
  intros E D e_new d_new encode decode msgs (R & H0 & HR). unfold hh_new. revert H0. generalize e_new d_new.
  induction msgs as [|m ms IH]; intros e d H; cbn [conversation]; [reflexivity|].
  unfold hh_compress. cbn [fst snd]. destruct (HR _ _ (map (fun '(n, v) => (n, v, mem_str (lower n) hh_sensitive)) m) H) as (e' & out & d' & E1 & E2 & H').
  rewrite E1. cbn [bind]. unfold hh_decompress. cbn [fst snd]. rewrite E2. cbn [bind]. rewrite (IH _ _ H'). cbn [bind].
  rewrite map_map, (map_ext _ (fun x => x)), map_id; [reflexivity|]. intros [a b]. reflexivity.
Qed.
Print Assumptions C110_list.

Theorem C110_not_sensitive : forall E D (encode : E -> list (str * str * bool) -> res (E * str)) st d st' c,
  hh_compress E D encode st d = Ok (st', c) ->
  exists l, encode (fst st) l = Ok (fst st', c) /\ map fst l = d /\ Forall (fun x => snd x = false) l /\ snd st' = snd st.
Proof.
  intros E D encode st d st' c H. unfold hh_compress in H. apply bind_ok in H as ([e out] & E1 & H). eexists. split.
  - assert (fst st' = e) as -> by (injection H as <- _; reflexivity). assert (out = c) as <- by congruence. exact E1.
  - split; [|split].
    + rewrite map_map, (map_ext _ (fun x => x)), map_id; [reflexivity|]. intros [a b]. reflexivity.
    + apply Forall_forall. intros x Hx. apply in_map_iff in Hx as ([a b] & <- & _). reflexivity.
    + injection H as <- _. reflexivity.
Qed.
Print Assumptions C110_not_sensitive.

Definition made_dict (l : list (str * str)) : hdict := fold_left (fun d '(k, v) => dset d k v) l [].

Lemma made_dict_same d : is_dict d -> made_dict d = d.
Proof.
  unfold made_dict. assert (G : forall l acc : hdict, is_dict (acc ++ l) -> fold_left (fun d '(k, v) => dset d k v) l acc = acc ++ l).
  { induction l as [|[k v] l IH]; intros acc H; cbn [fold_left]; [now rewrite app_nil_r|].
    rewrite dset_new.
    - rewrite IH; rewrite <- app_assoc; [reflexivity|exact H].
    - unfold is_dict, keys in H. rewrite map_app in H. cbn [map fst] in H. apply NoDup_remove_2 in H.
      destruct (dget acc k) as [x|] eqn:E; [|reflexivity]. exfalso. apply H, in_or_app. left. apply dget_in in E. apply (in_map fst) in E. exact E. }
  intros H. apply (G d []). exact H.
Qed.

Theorem C110_as_dictionary : forall E D (e_new : E) (d_new : D) encode decode msgs ord name, gives_back e_new d_new encode decode -> is_order ord ->
  Forall is_dict msgs ->
  exists backs, conversation encode decode (hh_new E D e_new d_new) msgs = Ok backs /\
    Forall2 (fun m b => compare_headers ord m (lit "orig") (made_dict b) name = []) msgs backs.
Proof.
  intros E D e_new d_new encode decode msgs ord name HG Ho HF. exists msgs. split; [now apply C110_list|].
  induction HF as [|m ms H _ IH]; constructor; [|exact IH]. rewrite made_dict_same by exact H. apply compare_verdict; [exact Ho|]. intros k y _. reflexivity.
Qed.
Print Assumptions C110_as_dictionary.

(** ** Case: a package that writes names and values with their lengths. *)
Definition toy_encode (n : N) (l : list (str * str * bool)) : res (N * str) :=
  Ok (n + 1, flat_map (fun '(k, v, s) => lenN k :: k ++ lenN v :: v) l).
Fixpoint toy_decode_loop (fuel : nat) (s : str) : list (str * str) :=
  match fuel, s with
  | S f, a :: s =>
      let k := firstn (N.to_nat a) s in
      match skipn (N.to_nat a) s with
      | b :: r => (k, firstn (N.to_nat b) r) :: toy_decode_loop f (skipn (N.to_nat b) r)
      | [] => []
      end
  | _, _ => []
  end.
Definition toy_decode (n : N) (s : str) : res (N * list (str * str)) := Ok (n + 1, toy_decode_loop (length s) s).

Lemma cut_l (k r : str) : firstn (N.to_nat (lenN k)) (k ++ r) = k.
Proof. unfold lenN. rewrite Nnat.Nat2N.id, firstn_app, Nat.sub_diag, firstn_all, app_nil_r. reflexivity. Qed.
Lemma cut_r (k r : str) : skipn (N.to_nat (lenN k)) (k ++ r) = r.
Proof. unfold lenN. rewrite Nnat.Nat2N.id, skipn_app, Nat.sub_diag, skipn_all. reflexivity. Qed.

Lemma toy_loop : forall l f, (length (flat_map (fun '(k, v, s) => lenN k :: k ++ lenN v :: v) l) <= f)%nat ->
  toy_decode_loop f (flat_map (fun '(k, v, s) => lenN k :: k ++ lenN v :: v) (l : list (str * str * bool))) = map fst l.
Proof.
  induction l as [|[[k v] b] l IH]; intros f Hf; cbn [flat_map map] in *; [destruct f; reflexivity|].
  destruct f as [|f]; [cbn [app length] in Hf; lia|]. rewrite <- app_comm_cons, <- app_assoc, <- app_comm_cons in *. cbn [toy_decode_loop length] in *.
  rewrite !cut_r, !cut_l. cbn [fst].
  rewrite IH; [reflexivity|]. rewrite !app_length in Hf. cbn [length] in Hf. rewrite app_length in Hf. lia.
Qed.

Lemma toy_gives_back : gives_back 0 0 toy_encode toy_decode.
Proof.
  exists (fun _ _ => True). split; [exact I|]. intros e d l _. do 3 eexists. split; [reflexivity|]. split; [|exact I].
  unfold toy_decode. rewrite toy_loop by lia. reflexivity.
Qed.

Definition c110_run (names : list str) := run (unit + (N * N)) (wh_construct N N 0 0 unit (fun _ _ _ => Ok tt))
  (wh_compress N N toy_encode unit (fun _ _ d _ => Ok (tt, flat_map fst d)))
  (wh_decompress N N toy_decode unit (fun _ _ _ => Ok (tt, None))) (fun l => l) streamify_host
  (mkOpts false false names None false)
  [[([(lit ":host", lit "h"); (lit ":method", lit "get")], [(lit ":status", lit "200")])]].

Example C110_case :
  c110_run [lit "hyper_hpack"] = Err AttributeError /\
  (exists rep, c110_run [] = Ok rep) /\
  parse_spec (lit "hyper_hpack") = Ok (lit "hyper_hpack", []) /\
  conversation toy_encode toy_decode (0, 0) [c31_req] = Ok [c31_req].
Proof.
  split; [vm_compute; reflexivity|]. split; [eexists; vm_compute; reflexivity|]. split; vm_compute; reflexivity.
Qed.
