(** * Property C106: what the tool writes for each message. *)
From Coq Require Import String List NArith ZArith Bool Arith Lia Permutation.
From Verif Require Import PyBase PyStr PyNum H1_Model Lib_Model Lib_Spec Lib_Proofs Verbose_Model.
Import ListNotations.
Open Scope N_scope.
Open Scope py_scope.

(** ** Specification *)

Definition mismatch_line (name : str) : str := lit "  - mismatch in " ++ name ++ [10].

(** Everything about one message and one processor: [seen] is what its decompress
    returned, [None] if it has none. *)
Definition told_one (ord : list (str * str) -> list (str * str)) (verbose : Z) (is_req : bool) (host : str) (idx tot : nat) (sent : hdict)
    (name : str) (seen : option hdict) : str :=
  (if (verbose <? 3)%Z then [] else
     lit "# " ++ name ++ (if is_req then lit " request " else lit " response ")
       ++ dec (N.of_nat idx) ++ lit " (of " ++ dec (N.of_nat tot) ++ lit ") for " ++ host ++ [10]) ++
  match seen with
  | None => []
  | Some d =>
      (if (verbose <? 4)%Z then [] else http1_compress d) ++
      match compare_headers ord sent (lit "orig") d name with
      | [] => []
      | report => if (verbose <? 2)%Z then mismatch_line name
                  else lit "  - mismatch in " ++ name ++ lit ":" ++ [10] ++ report ++ [10; 10]
      end
  end.

(** Everything about the messages of a session, from the one numbered [idx] on. *)
Fixpoint told (ord : list (str * str) -> list (str * str)) (verbose : Z) (is_req : bool) (idx tot : nat) (names : list str)
    (msgs : list (hdict * str)) (seen : list (list (option hdict))) : str :=
  match msgs, seen with
  | (hdrs, host) :: msgs, ds :: seen =>
      (if (verbose <? 4)%Z then [] else repeat 35 80 ++ [10]) ++
      concat (map (fun '(n, d) => told_one ord verbose is_req host idx tot (filter_headers hdrs) n d) (combine names ds)) ++
      told ord verbose is_req (S idx) tot names msgs seen
  | _, _ => []
  end.

(** The processors a message comes back changed from. *)
Definition mismatching (ord : list (str * str) -> list (str * str)) (hdrs : hdict) (names : list str) (ds : list (option hdict)) : list str :=
  flat_map (fun '(n, d) => match d with
                           | None => []
                           | Some d => match compare_headers ord (filter_headers hdrs) (lit "orig") d n with [] => [] | _ => [n] end
                           end) (combine names ds).

(** ** Proofs *)

Section Proofs.
Variable St : Type.
Variable construct : str -> bool -> list str -> res St.
Variable p_compress : str -> St -> hdict -> str -> res (St * str).
Variable p_decompress : str -> St -> str -> res (St * option hdict).
Variable ord : list (str * str) -> list (str * str).

Notation one := (process_one_io St p_compress p_decompress ord).
Notation loop := (message_loop_io St p_compress p_decompress ord).
Notation message := (process_message_io St p_compress p_decompress ord).
Notation sloop := (session_loop_io St p_compress p_decompress ord).
Notation session := (process_session_io St construct p_compress p_decompress ord).
Notation sessions := (process_sessions_io St construct p_compress p_decompress ord).

Lemma one_erase v debug q hdrs host i t p o : snd (one v debug q hdrs host i t p o) = process_one St p_compress p_decompress ord debug hdrs host p.
Proof.
  unfold process_one_io, process_one. cbv zeta. destruct (p_compress _ _ _ _) as [[st c]|e]; [|reflexivity]. cbn [bind].
  destruct (p_decompress _ _ _) as [[st' [d|]]|e]; cbn [bind]; try reflexivity.
  destruct (compare_headers _ _ _ _ _); [reflexivity|]. now destruct debug.
Qed.

Lemma loop_erase v debug q hdrs host i t : forall procs results mism o,
  snd (loop v debug q procs hdrs host i t results mism o) = process_message St p_compress p_decompress ord debug procs hdrs host results mism.
Proof.
  induction procs as [|p ps IH]; intros results mism o; cbn [message_loop_io process_message]; [reflexivity|].
  pose proof (one_erase v debug q hdrs host i t p o) as E. destruct (one v debug q hdrs host i t p o) as [o1 [[[p1 size] bad]|e]]; cbn [snd] in E;
    rewrite <- E; cbn [bind]; [|reflexivity].
  specialize (IH (dset results (p_name St p1) size) (if bad then mism ++ [p_name St p1] else mism) o1). rewrite <- IH.
  destruct (loop v debug q ps hdrs host i t _ _ o1) as [o2 [[[ps2 r2] m2]|e]]; reflexivity.
Qed.

Lemma sloop_erase v debug base q t : forall msgs procs i sizes ratios mism o,
  snd (sloop v debug base q procs i t msgs sizes ratios mism o) = session_loop St p_compress p_decompress ord debug base procs msgs sizes ratios mism.
Proof.
  induction msgs as [|[hdrs host] msgs IH]; intros procs i sizes ratios mism o; cbn [session_loop_io session_loop]; [reflexivity|].
  unfold process_message_io. cbv zeta.
  match goal with |- context [loop v debug q procs hdrs host (S i) t [] [] ?o1] =>
    pose proof (loop_erase v debug q hdrs host (S i) t procs [] [] o1) as E; destruct (loop v debug q procs hdrs host (S i) t [] [] o1) as [o2 [[[ps r] b]|e]] end;
    cbn [snd] in E; rewrite <- E; cbn [bind]; [|reflexivity].
  destruct (record_results base r r sizes ratios) as [[s2 r2]|e]; cbn [bind]; [apply IH|reflexivity].
Qed.

Lemma session_erase v debug base names q msgs o :
  snd (session v debug base names q msgs o) = process_session St construct p_compress p_decompress ord debug base names q msgs.
Proof.
  unfold process_session_io, process_session. destruct (get_processors St construct q names) as [procs|e]; cbn [bind]; [apply sloop_erase|reflexivity].
Qed.

Lemma sessions_erase v debug base names : forall ss o,
  snd (sessions v debug base names ss o) = process_sessions St construct p_compress p_decompress ord debug base names ss.
Proof.
  induction ss as [|[q msgs] ss IH]; intros o; cbn [process_sessions_io process_sessions]; [reflexivity|].
  pose proof (session_erase v debug base names q msgs o) as E.
  destruct (session v debug base names q msgs o) as [o1 [r|e]]; cbn [snd] in E; rewrite <- E; cbn [bind]; [|reflexivity].
  specialize (IH o1). rewrite <- IH. now destruct (sessions v debug base names ss o1) as [o2 [rs|e]].
Qed.

(** *** What is said *)

Lemma ends_with_lf r : match r ++ [10] with [] => true | c :: t => negb (last t c =? 10) end = false.
Proof.
  destruct r as [|c r]; cbn [app]; [reflexivity|]. rewrite last_last. reflexivity.
Qed.

Lemma text_ends d : exists r, http1_compress d = r ++ [10].
Proof.
  unfold http1_compress, format_http1. match goal with |- context [let '(t, a) := ?x in _] => destruct x as [top avoid] end.
  change [13; 10] with ([13] ++ [10]) at 2. rewrite !app_assoc. eexists. reflexivity.
Qed.

Lemma show_message_out v d o : show_message v d o = say o (if (v <? 4)%Z then [] else http1_compress d).
Proof.
  unfold show_message. destruct (Z.ltb_spec 3 v), (Z.ltb_spec v 4); try lia.
  - destruct (text_ends d) as [r ->]. cbv zeta. now rewrite ends_with_lf.
  - unfold say. rewrite app_nil_r. now destruct o.
Qed.

Lemma say_say o a b : say (say o a) b = say o (a ++ b).
Proof. unfold say. cbn [out err warned]. now rewrite app_assoc. Qed.
Lemma say_nil o : say o [] = o.
Proof. unfold say. rewrite app_nil_r. now destruct o. Qed.

Lemma complain_out v name r o : complain v name r o =
  say o (if (v <? 2)%Z then mismatch_line name else lit "  - mismatch in " ++ name ++ lit ":" ++ [10] ++ r ++ [10; 10]).
Proof.
  unfold complain, mismatch_line. cbv zeta. destruct (Z.ltb_spec 1 v), (Z.ltb_spec v 2); try lia; rewrite !say_say; f_equal; rewrite <- !app_assoc; reflexivity.
Qed.

Lemma progress_out v q host i t name o : progress v q host i t name o = say o (if (v <? 3)%Z then [] else
     lit "# " ++ name ++ (if q then lit " request " else lit " response ")
       ++ dec (N.of_nat i) ++ lit " (of " ++ dec (N.of_nat t) ++ lit ") for " ++ host ++ [10]).
Proof.
  unfold progress. destruct (Z.leb_spec 3 v), (Z.ltb_spec v 3); try lia; [|now rewrite say_nil]. f_equal. now destruct q.
Qed.

(** What one processor does to the three records. *)
Definition after (v : Z) (q : bool) (host : str) (i t : nat) (sent : hdict) (name : str) (seen : option hdict) (o : io) : io :=
  let o := say o (told_one ord v q host i t sent name seen) in match seen with None => warn o name | Some _ => o end.

Lemma one_said v debug q hdrs host i t p o o' r : one v debug q hdrs host i t p o = (o', r) ->
  match r with
  | Ok (p', size, bad) => exists seen st c,
      p_decompress (p_mod St p) st c = Ok (p_st St p', seen) /\ p_mod St p' = p_mod St p /\ p_name St p' = p_name St p /\
      o' = after v q host i t (filter_headers hdrs) (p_name St p) seen o /\
      (bad = true /\ mismatching ord hdrs [p_name St p] [seen] = [p_name St p] \/ bad = false /\ mismatching ord hdrs [p_name St p] [seen] = []) /\
      (debug = true -> bad = false)
  | Err e => err o' = err o /\ warned o' = warned o /\
      (out o' = out o ++ (if (v <? 3)%Z then [] else
         lit "# " ++ p_name St p ++ (if q then lit " request " else lit " response ")
           ++ dec (N.of_nat i) ++ lit " (of " ++ dec (N.of_nat t) ++ lit ") for " ++ host ++ [10]) \/
       debug = true /\ e = SystemExit /\ exists d, mismatching ord hdrs [p_name St p] [Some d] = [p_name St p] /\
         out o' = out o ++ told_one ord v q host i t (filter_headers hdrs) (p_name St p) (Some d))
  end.
Proof.
  unfold process_one_io. cbv zeta. rewrite progress_out. destruct (p_compress _ _ _ _) as [[st c]|e].
  2:{ intros H. injection H as <- <-. cbn [say out err warned]. auto. }
  destruct (p_decompress _ _ _) as [[st' [d|]]|e] eqn:D.
  - destruct (compare_headers ord (filter_headers hdrs) (lit "orig") d (p_name St p)) as [|x rep] eqn:C.
    + intros H. injection H as <- <-. exists (Some d), st, c. cbn [p_st p_mod p_name]. do 3 (split; [first [exact D|reflexivity]|]). split.
      * unfold after, told_one. rewrite C, show_message_out, say_say, app_nil_r. reflexivity.
      * split; [|auto]. right. split; [reflexivity|]. unfold mismatching. cbn [combine flat_map]. now rewrite C.
    + assert (M : mismatching ord hdrs [p_name St p] [Some d] = [p_name St p]) by (unfold mismatching; cbn [combine flat_map]; now rewrite C).
      assert (T : complain v (p_name St p) (x :: rep) (show_message v d (say o (if (v <? 3)%Z then [] else
         lit "# " ++ p_name St p ++ (if q then lit " request " else lit " response ")
           ++ dec (N.of_nat i) ++ lit " (of " ++ dec (N.of_nat t) ++ lit ") for " ++ host ++ [10]))) =
         after v q host i t (filter_headers hdrs) (p_name St p) (Some d) o).
      { unfold after, told_one. rewrite C, show_message_out, complain_out, !say_say. reflexivity. }
      rewrite T. destruct debug; intros H; injection H as <- <-.
      * split; [reflexivity|]. split; [reflexivity|]. right. split; [reflexivity|]. split; [reflexivity|]. exists d. split; [exact M|reflexivity].
      * exists (Some d), st, c. cbn [p_st p_mod p_name]. do 4 (split; [first [exact D|reflexivity]|]). split; [now left|discriminate].
  - intros H. injection H as <- <-. exists None, st, c. cbn [p_st p_mod p_name]. do 3 (split; [first [exact D|reflexivity]|]). split.
    + unfold after, told_one. now rewrite app_nil_r.
    + split; [now right|auto].
  - intros H. injection H as <- <-. cbn [say out err warned]. auto.
Qed.

(** The processors' modules and names. *)
Definition tags (procs : list (proc St)) : list (str * str) := map (fun p => (p_mod St p, p_name St p)) procs.
Definition names_of_procs (procs : list (proc St)) : list str := map (p_name St) procs.

Definition warn_all (ns : list (str * option hdict)) (o : io) : io :=
  fold_left (fun o '(n, d) => match d with None => warn o n | Some _ => o end) ns o.

Lemma say_warn o n s : warn (say o s) n = say (warn o n) s.
Proof. unfold warn, say. cbn [out err warned]. now destruct (mem_str n (warned o)). Qed.
Lemma say_warn_all ns : forall o s, warn_all ns (say o s) = say (warn_all ns o) s.
Proof.
  unfold warn_all. induction ns as [|[n d] ns IH]; intros o s; cbn [fold_left]; [reflexivity|]. destruct d; [apply IH|]. rewrite say_warn. apply IH.
Qed.

Lemma warn_all_app a b o : warn_all (a ++ b) o = warn_all b (warn_all a o).
Proof. apply fold_left_app. Qed.

Lemma loop_said v debug q hdrs host i t : forall procs results mism o o' procs' results' mism',
  loop v debug q procs hdrs host i t results mism o = (o', Ok (procs', results', mism')) ->
  exists seen, length seen = length procs /\ tags procs' = tags procs /\
    o' = say (warn_all (combine (names_of_procs procs) seen) o)
           (concat (map (fun '(n, d) => told_one ord v q host i t (filter_headers hdrs) n d) (combine (names_of_procs procs) seen))) /\
    mism' = mism ++ mismatching ord hdrs (names_of_procs procs) seen /\
    (debug = true -> mism' = mism) /\
    Forall2 (fun p d => exists st c st', p_decompress (p_mod St p) st c = Ok (st', d)) procs seen.
Proof.
  induction procs as [|p ps IH]; intros results mism o o' procs' results' mism'; cbn [message_loop_io].
  - intros H. injection H as <- <- <- <-. exists []. cbn. rewrite say_nil, app_nil_r. repeat split; auto.
  - destruct (one v debug q hdrs host i t p o) as [o1 [[[p1 size] bad]|e]] eqn:E; [|discriminate].
    pose proof (one_said _ _ _ _ _ _ _ _ _ _ _ E) as (d & st & c & ED & Em & En & Eo & Eb & Ed).
    destruct (loop v debug q ps hdrs host i t _ _ o1) as [o2 [[[ps2 r2] m2]|e]] eqn:L; [|discriminate].
    intros H. injection H as <- <- <- <-. destruct (IH _ _ _ _ _ _ _ L) as (seen & A & B & C & D & F & G).
    exists (d :: seen). split; [cbn [length]; lia|]. split; [unfold tags in *; cbn [map]; now rewrite Em, En, B|].
    change (names_of_procs (p :: ps)) with (p_name St p :: names_of_procs ps). cbn [combine]. split.
    + rewrite C, Eo. unfold after. cbn [map concat]. unfold warn_all at 2. cbn [fold_left].
      fold (warn_all (combine (names_of_procs ps) seen)).
      destruct d; [|rewrite say_warn]; rewrite say_warn_all, say_say; reflexivity.
    + split; [|split].
      * rewrite D, En. unfold mismatching in *. cbn [combine flat_map] in *. rewrite app_nil_r in Eb.
        destruct Eb as [[-> ->]|[-> ->]]; [now rewrite <- app_assoc|reflexivity].
      * intros Hd. rewrite (F Hd). rewrite (Ed Hd). reflexivity.
      * constructor; [|exact G]. eauto.
Qed.

Lemma tags_names procs procs' : tags procs' = tags procs -> names_of_procs procs' = names_of_procs procs.
Proof.
  intros H. apply (f_equal (map snd)) in H. unfold tags in H. rewrite !map_map in H. exact H.
Qed.

Definition all_mismatching (names : list str) (msgs : list (hdict * str)) (seen : list (list (option hdict))) : list (list str) :=
  map (fun '((hdrs, _), ds) => mismatching ord hdrs names ds) (combine msgs seen).

(** The processors of a message and what they returned. *)
Definition returned (procs : list (proc St)) (seen : list (option hdict)) : Prop :=
  Forall2 (fun '(m, _) d => exists st c st', p_decompress m st c = Ok (st', d)) (tags procs) seen.

Lemma returned_of procs seen : Forall2 (fun p d => exists st c st', p_decompress (p_mod St p) st c = Ok (st', d)) procs seen -> returned procs seen.
Proof. unfold returned, tags. intros H. induction H; cbn [map]; constructor; auto. Qed.

Lemma sloop_said v debug base q t : forall msgs procs i sizes ratios mism o o' sizes' ratios' mism',
  sloop v debug base q procs i t msgs sizes ratios mism o = (o', Ok (sizes', ratios', mism')) ->
  exists seen, length seen = length msgs /\ Forall (returned procs) seen /\
    o' = say (warn_all (concat (map (combine (names_of_procs procs)) seen)) o) (told ord v q (S i) t (names_of_procs procs) msgs seen) /\
    mism' = mism ++ all_mismatching (names_of_procs procs) msgs seen /\
    (debug = true -> concat mism' = concat mism).
Proof.
  induction msgs as [|[hdrs host] msgs IH]; intros procs i sizes ratios mism o o' sizes' ratios' mism'; cbn [session_loop_io].
  - intros H. injection H as <- <- <- <-. exists []. cbn. rewrite say_nil, app_nil_r. auto.
  - destruct (message v debug q procs hdrs host (S i) t o) as [o1 [[[procs1 r] bad]|e]] eqn:E; [|discriminate].
    destruct (record_results base r r sizes ratios) as [[s2 r2]|e]; [|discriminate]. intros H.
    unfold process_message_io in E. cbv zeta in E. apply loop_said in E. destruct E as (ds & A & B & C & D & F & G).
    apply IH in H. destruct H as (seen & A2 & B2 & C2 & D2 & F2). rewrite (tags_names _ _ B) in C2, D2.
    exists (ds :: seen). split; [cbn [length]; lia|]. split; [|split; [|split]].
    + constructor; [now apply returned_of|]. unfold returned in B2. rewrite B in B2. exact B2.
    + rewrite C2, C. cbn [map concat told]. rewrite warn_all_app.
      destruct (Z.ltb_spec 3 v), (Z.ltb_spec v 4); try lia; rewrite ?say_warn_all, ?say_say; f_equal; now rewrite <- ?app_assoc.
    + rewrite D2, D. cbn [app all_mismatching combine map]. now rewrite <- app_assoc.
    + intros Hd. rewrite (F2 Hd), (F Hd), concat_app. cbn [concat]. now rewrite !app_nil_r.
Qed.

(** *** Verbosity 0 and 1 *)

Lemma told_one_quiet v q host i t hdrs n d : (v <= 1)%Z ->
  told_one ord v q host i t (filter_headers hdrs) n d = concat (map mismatch_line (mismatching ord hdrs [n] [d])).
Proof.
  intros V. unfold told_one, mismatching. cbn [combine flat_map]. rewrite app_nil_r.
  destruct (Z.ltb_spec v 3), (Z.ltb_spec v 4), (Z.ltb_spec v 2); try lia. destruct d as [d|]; [|reflexivity].
  cbn [app]. destruct (compare_headers ord (filter_headers hdrs) (lit "orig") d n); [reflexivity|]. cbn [map concat]. now rewrite app_nil_r.
Qed.

Lemma told_loop_quiet v q host i t hdrs : (v <= 1)%Z -> forall names ds,
  concat (map (fun '(n, d) => told_one ord v q host i t (filter_headers hdrs) n d) (combine names ds)) =
  concat (map mismatch_line (mismatching ord hdrs names ds)).
Proof.
  intros V. induction names as [|n names IH]; intros [|d ds]; try reflexivity.
  cbn [combine map concat]. rewrite IH, (told_one_quiet v q host i t hdrs n d V). unfold mismatching. cbn [combine flat_map].
  rewrite app_nil_r, map_app, concat_app. reflexivity.
Qed.

Lemma told_quiet v q t names : (v <= 1)%Z -> forall msgs i seen,
  told ord v q i t names msgs seen = concat (map mismatch_line (concat (all_mismatching names msgs seen))).
Proof.
  intros V. induction msgs as [|[hdrs host] msgs IH]; intros i [|ds seen]; try reflexivity.
  cbn [told combine all_mismatching map concat]. fold (all_mismatching names msgs seen). rewrite IH, told_loop_quiet by exact V.
  destruct (Z.ltb_spec v 4); [|lia]. cbn [app]. now rewrite map_app, concat_app.
Qed.

Lemma warn_all_out ns : forall o, out (warn_all ns o) = out o.
Proof.
  unfold warn_all. induction ns as [|[n d] ns IH]; intros o; cbn [fold_left]; [reflexivity|]. rewrite IH. destruct d; [reflexivity|].
  unfold warn. now destruct (mem_str n (warned o)).
Qed.

Lemma sessions_quiet v debug base names : (v <= 1)%Z -> forall ss o o' rs,
  sessions v debug base names ss o = (o', Ok rs) ->
  out o' = out o ++ concat (map mismatch_line (concat (concat (map snd rs)))).
Proof.
  intros V. induction ss as [|[q msgs] ss IH]; intros o o' rs; cbn [process_sessions_io].
  - intros H. injection H as <- <-. cbn. now rewrite app_nil_r.
  - destruct (session v debug base names q msgs o) as [o1 [r|e]] eqn:E; [|discriminate].
    destruct (sessions v debug base names ss o1) as [o2 [rs2|e]] eqn:E2; [|discriminate]. intros H. injection H as <- <-.
    rewrite (IH _ _ _ E2). unfold process_session_io in E. destruct (get_processors St construct q names) as [procs|e]; [|discriminate].
    destruct r as [[sz ra] mi]. apply sloop_said in E. destruct E as (seen & _ & _ & -> & -> & _).
    unfold say. cbn [out]. rewrite warn_all_out, told_quiet by exact V. cbn [map snd concat app]. now rewrite concat_app, map_app, concat_app, <- app_assoc.
Qed.

(** *** Debugging *)

Definition stopped (o o' : io) (e : exn) : Prop :=
  out o' = out o \/ e = SystemExit /\ exists n, out o' = out o ++ mismatch_line n.

Lemma after_out v q host i t sent name seen o : out (after v q host i t sent name seen o) = out o ++ told_one ord v q host i t sent name seen.
Proof.
  unfold after. destruct seen; [reflexivity|]. unfold warn. cbv zeta. now destruct (mem_str name (warned _)).
Qed.

Lemma loop_debug v q hdrs host i t : (v <= 1)%Z -> forall procs results mism o o' r,
  loop v true q procs hdrs host i t results mism o = (o', r) -> match r with Ok _ => out o' = out o | Err e => stopped o o' e end.
Proof.
  intros V. induction procs as [|p ps IH]; intros results mism o o' r; cbn [message_loop_io].
  - intros H. injection H as <- <-. reflexivity.
  - destruct (one v true q hdrs host i t p o) as [o1 [[[p1 size] bad]|e]] eqn:E; pose proof (one_said _ _ _ _ _ _ _ _ _ _ _ E) as K.
    + destruct K as (d & st & c & _ & _ & _ & Eo & Eb & Ed). specialize (Ed eq_refl). subst bad. destruct Eb as [[Eb _]|[_ Eb]]; [discriminate|].
      assert (O1 : out o1 = out o).
      { rewrite Eo, after_out, told_one_quiet, Eb by exact V. now rewrite app_nil_r. }
      destruct (loop v true q ps hdrs host i t _ _ o1) as [o2 r2] eqn:L. specialize (IH _ _ _ _ _ L).
      destruct r2 as [[[ps2 r2] m2]|e2]; intros H; injection H as <- <-.
      * congruence.
      * unfold stopped in *. now rewrite O1 in IH.
    + intros H. injection H as <- <-. destruct K as (_ & _ & [K|(_ & K & d & M & K2)]).
      * left. rewrite K. destruct (Z.ltb_spec v 3); [|lia]. apply app_nil_r.
      * right. split; [exact K|]. exists (p_name St p). rewrite K2, told_one_quiet, M by exact V. cbn [map concat]. now rewrite app_nil_r.
Qed.

Lemma sloop_debug v base q t : (v <= 1)%Z -> forall msgs procs i sizes ratios mism o o' r,
  sloop v true base q procs i t msgs sizes ratios mism o = (o', r) -> match r with Ok _ => out o' = out o | Err e => stopped o o' e end.
Proof.
  intros V. induction msgs as [|[hdrs host] msgs IH]; intros procs i sizes ratios mism o o' r; cbn [session_loop_io].
  - intros H. injection H as <- <-. reflexivity.
  - unfold process_message_io. cbv zeta. destruct (Z.ltb_spec 3 v) as [V3|_]; [lia|].
    destruct (loop v true q procs hdrs host (S i) t [] [] o) as [o1 r1] eqn:L. apply (loop_debug v q hdrs host (S i) t V) in L.
    destruct r1 as [[[ps rr] b]|e]; [|intros H; injection H as <- <-; exact L].
    destruct (record_results base rr rr sizes ratios) as [[s2 r2]|e].
    + intros H. apply IH in H. destruct r; [congruence|]. unfold stopped in *. now rewrite L in H.
    + intros H. injection H as <- <-. now left.
Qed.

Lemma sessions_debug v base names : (v <= 1)%Z -> forall ss o o' r,
  sessions v true base names ss o = (o', r) -> match r with Ok _ => out o' = out o | Err e => stopped o o' e end.
Proof.
  intros V. induction ss as [|[q msgs] ss IH]; intros o o' r; cbn [process_sessions_io].
  - intros H. injection H as <- <-. reflexivity.
  - unfold process_session_io. destruct (get_processors St construct q names) as [procs|e]; [|intros H; injection H as <- <-; now left].
    destruct (sloop v true base q procs 0 (length msgs) msgs [] [] [] o) as [o1 r1] eqn:L. apply (sloop_debug v base q _ V) in L.
    destruct r1 as [r1|e]; [|intros H; injection H as <- <-; exact L].
    destruct (sessions v true base names ss o1) as [o2 r2] eqn:E2. specialize (IH _ _ _ E2).
    destruct r2 as [r2|e2]; intros H; injection H as <- <-; [congruence|]. unfold stopped in *. now rewrite L in IH.
Qed.

(** *** Warnings *)

Lemma warn_all_spec ns : forall o, exists new, err (warn_all ns o) = err o ++ concat (map warning new) /\
  warned (warn_all ns o) = warned o ++ new /\
  (forall n, In n (warned o ++ new) <-> In n (warned o) \/ In (n, None) ns) /\ (NoDup (warned o) -> NoDup (warned o ++ new)).
Proof.
  unfold warn_all. induction ns as [|[n d] ns IH]; intros o; cbn [fold_left].
  - exists []. cbn. rewrite !app_nil_r. repeat split; auto. intros [H|[]]; exact H.
  - destruct d as [d|].
    + destruct (IH o) as (new & A & B & C & D). exists new. repeat (split; [assumption|]). split; [|exact D]. intros x. rewrite C. cbn [In].
      split; [tauto|]. intros [H|[H|H]]; auto. discriminate.
    + unfold warn at 2 4. destruct (mem_str_spec n (warned o)) as [I|I].
      * destruct (IH o) as (new & A & B & C & D). exists new. repeat (split; [assumption|]). split; [|exact D]. intros x. rewrite C. cbn [In].
        split; [tauto|]. intros [H|[H|H]]; auto. injection H as <-. now left.
      * destruct (IH (mk_io (out o) (err o ++ warning n) (warned o ++ [n]))) as (new & A & B & C & D). cbn [err warned] in *.
        exists (n :: new). rewrite <- app_assoc in A, B, C, D. cbn [app] in *. split; [|split; [exact B|split]].
        { rewrite A. reflexivity. }
        { intros x. rewrite C, in_app_iff. cbn [In]. split; [intros [[H|[H|[]]]|H]; auto; subst; auto|].
          intros [H|[H|H]]; auto. injection H as <-. auto. }
        { intros N. apply D. apply (NoDup_Add (a := n) (l := warned o)); [|now split].
          rewrite <- (app_nil_r (warned o)) at 1. apply Add_app. }
Qed.

Lemma get_tags q : forall names procs, get_processors St construct q names = Ok procs ->
  forall m n, In (m, n) (tags procs) <-> exists o ps, In o names /\ parse_spec o = Ok (m, ps) /\ n = display_name m ps.
Proof.
  induction names as [|o names IH]; intros procs; cbn [get_processors].
  - intros H. injection H as <-. intros m n. split; [intros []|intros (o & ps & [] & _)].
  - destruct (parse_spec o) as [[m0 ps0]|e] eqn:P; cbn [bind]; [|discriminate].
    destruct (construct m0 q ps0) as [st|e]; cbn [bind]; [|discriminate].
    destruct (get_processors St construct q names) as [r|e]; cbn [bind]; [|discriminate].
    intros H. injection H as <-. intros m n. cbn [tags map In p_mod p_name]. fold (tags r). rewrite (IH r eq_refl). split.
    + intros [E|(o' & ps & I & Q & ->)]; [injection E as <- <-; exists o, ps0; auto|exists o', ps; auto].
    + intros (o' & ps & [->|I] & Q & ->); [left; congruence|right; exists o', ps; auto].
Qed.

Section Unchecked.
Variable unchecked : str -> bool.
Hypothesis H_unchecked : forall m st c st' d, p_decompress m st c = Ok (st', d) -> (d = None <-> unchecked m = true).

Lemma returned_none procs ds : returned procs ds ->
  forall n, In (n, None) (combine (names_of_procs procs) ds) <-> exists m, In (m, n) (tags procs) /\ unchecked m = true.
Proof.
  unfold returned. replace (names_of_procs procs) with (map snd (tags procs)) by (unfold tags, names_of_procs; now rewrite map_map).
  intros H n. induction H as [|[m0 n0] d l ds (st & c & st' & D) F IH]; cbn [map combine In snd].
  - split; [intros []|intros (m & [] & _)].
  - rewrite IH. apply H_unchecked in D. split.
    + intros [E|(m & I & U)]; [injection E as -> ->; exists m0; split; [now left|now apply D]|exists m; auto].
    + intros (m & [E|I] & U); [injection E as -> ->; left; f_equal; now apply D|right; exists m; auto].
Qed.

(** A processor with that display name is selected and cannot decompress. *)
Definition cannot_check (names : list str) (n : str) : Prop :=
  exists o m ps, In o names /\ parse_spec o = Ok (m, ps) /\ n = display_name m ps /\ unchecked m = true.

Lemma sessions_warn v debug base names : forall ss o o' rs,
  sessions v debug base names ss o = (o', Ok rs) ->
  exists new, err o' = err o ++ concat (map warning new) /\ warned o' = warned o ++ new /\
    (forall n, In n (warned o ++ new) <-> In n (warned o) \/ cannot_check names n /\ exists q msgs, In (q, msgs) ss /\ msgs <> []) /\
    (NoDup (warned o) -> NoDup (warned o ++ new)).
Proof.
  induction ss as [|[q msgs] ss IH]; intros o o' rs; cbn [process_sessions_io].
  - intros H. injection H as <- <-. exists []. cbn. rewrite !app_nil_r. repeat split; auto. intros [H|(_ & q & m & [] & _)]; exact H.
  - destruct (session v debug base names q msgs o) as [o1 [r|e]] eqn:E; [|discriminate].
    destruct (sessions v debug base names ss o1) as [o2 [rs2|e]] eqn:E2; [|discriminate]. intros H. injection H as <- <-.
    unfold process_session_io in E. destruct (get_processors St construct q names) as [procs|e] eqn:G; [|discriminate].
    destruct r as [[sz ra] mi]. apply sloop_said in E. destruct E as (seen & SL & SR & E1 & _ & _).
    destruct (warn_all_spec (concat (map (combine (names_of_procs procs)) seen)) o) as (new & A & B & C & D).
    assert (A1 : err o1 = err o ++ concat (map warning new)) by now rewrite E1.
    assert (B1 : warned o1 = warned o ++ new) by now rewrite E1.
    assert (C1 : forall n, In n (warned o ++ new) <-> In n (warned o) \/ cannot_check names n /\ msgs <> []).
    { intros n. rewrite C. apply or_iff_compat_l. rewrite in_concat. split.
      - intros (l & I & J). apply in_map_iff in I. destruct I as (ds & <- & I). rewrite Forall_forall in SR.
        apply (returned_none procs ds (SR ds I)) in J. destruct J as (m & J & U). apply (get_tags q names procs G) in J.
        destruct J as (x & ps & K1 & K2 & K3). split; [now exists x, m, ps|]. intros ->. destruct seen; [contradiction|discriminate].
      - intros [(x & m & ps & K1 & K2 & K3 & K4) N]. destruct seen as [|ds seen]; [destruct msgs; [contradiction|discriminate]|].
        exists (combine (names_of_procs procs) ds). split; [now left|]. apply (returned_none procs ds); [now inversion SR|].
        exists m. split; [|exact K4]. apply (get_tags q names procs G). eauto. }
    destruct (IH _ _ _ E2) as (new2 & A2 & B2 & C2 & D2). rewrite A1, B1 in *. exists (new ++ new2).
    rewrite map_app, concat_app, !app_assoc. rewrite A2, B2. split; [reflexivity|]. split; [reflexivity|]. split; [|tauto].
    intros n. rewrite C2, C1. cbn [In]. split.
    + intros [[I|[K N]]|(K & q' & msgs' & I & N)]; [now left| |]; right; (split; [exact K|]); [exists q, msgs|exists q', msgs']; auto.
    + intros [I|(K & q' & msgs' & [I|I] & N)]; [auto| |].
      * injection I as -> ->. auto.
      * right. split; [exact K|]. eauto.
Qed.
End Unchecked.

(** ** C106 *)

(** What is measured, what mismatches and what exception ends the run does not
    depend on the verbosity nor on what has been written. *)
Theorem C106_same_results : forall verbose debug baseline names ss written,
  snd (sessions verbose debug baseline names ss written) =
  process_sessions St construct p_compress p_decompress ord debug baseline names ss.
Proof. intros. apply sessions_erase. Qed.

(** The text of a session, message by message and processor by processor. *)
Theorem C106_told : forall verbose debug baseline names is_req msgs written written' sizes ratios mism,
  session verbose debug baseline names is_req msgs written = (written', Ok (sizes, ratios, mism)) ->
  exists shown seen, length seen = length msgs /\ Forall (fun ds => length ds = length names) seen /\
    (exists specs, Forall2 (fun o s => parse_spec o = Ok s) names specs /\ shown = map (fun '(m, ps) => display_name m ps) specs) /\
    out written' = out written ++ told ord verbose is_req 1 (length msgs) shown msgs seen /\
    mism = map (fun '((hdrs, _), ds) => mismatching ord hdrs shown ds) (combine msgs seen).
Proof.
  intros v debug base names q msgs o o' sz ra mi E. unfold process_session_io in E.
  destruct (get_processors St construct q names) as [procs|e] eqn:G; [|discriminate].
  apply sloop_said in E. destruct E as (seen & SL & SR & E1 & E2 & _).
  assert (P : exists specs, Forall2 (fun o s => parse_spec o = Ok s) names specs /\ names_of_procs procs = map (fun '(m, ps) => display_name m ps) specs /\
                length procs = length names).
  { clear - G. revert procs G. induction names as [|o names IH]; intros procs; cbn [get_processors].
    - intros H. injection H as <-. exists []. repeat split; constructor.
    - destruct (parse_spec o) as [[m0 ps0]|e] eqn:P; cbn [bind]; [|discriminate].
      destruct (construct m0 q ps0) as [st|e]; cbn [bind]; [|discriminate].
      destruct (get_processors St construct q names) as [r|e]; cbn [bind]; [|discriminate].
      intros H. injection H as <-. destruct (IH r eq_refl) as (specs & A & B & C). exists ((m0, ps0) :: specs).
      split; [now constructor|]. cbn [names_of_procs map p_name length]. unfold names_of_procs in B. rewrite B. auto. }
  destruct P as (specs & P1 & P2 & P3). exists (names_of_procs procs), seen. split; [exact SL|]. split.
  { eapply Forall_impl; [|exact SR]. intros ds R. unfold returned in R. assert (L : length (tags procs) = length ds) by (clear - R; induction R; cbn [length]; congruence).
    unfold tags in L. rewrite map_length in L. congruence. }
  split; [now exists specs|]. split; [|exact E2]. rewrite E1. unfold say. cbn [out]. now rewrite warn_all_out.
Qed.

(** Verbosity 0 or 1, no exception: one line for each mismatch and nothing else. *)
Theorem C106_quiet : forall verbose debug baseline names ss written results, (verbose <= 1)%Z ->
  sessions verbose debug baseline names ss io_new = (written, Ok results) ->
  out written = concat (map mismatch_line (concat (concat (map snd results)))).
Proof. intros v debug base names ss o rs V H. apply (sessions_quiet v debug base names V) in H. exact H. Qed.

(** With -d the first mismatch ends the run, and its line is the only one. *)
Theorem C106_debug : forall verbose baseline names ss written r, (verbose <= 1)%Z ->
  sessions verbose true baseline names ss io_new = (written, r) ->
  out written = [] \/ r = Err SystemExit /\ exists name, out written = mismatch_line name.
Proof.
  intros v base names ss o r V H. apply (sessions_debug v base names V) in H. destruct r as [rs|e]; [left; exact H|].
  destruct H as [H|[-> [n H]]]; [left; exact H|right; split; [reflexivity|exists n; exact H]].
Qed.

(** On standard error: one warning for each display name whose processor cannot
    decompress, however many messages and sessions there are; none for http1_gzip. *)
Theorem C106_warnings : forall unchecked,
  (forall m st c st' d, p_decompress m st c = Ok (st', d) -> (d = None <-> unchecked m = true)) ->
  forall verbose debug baseline names ss written results,
  sessions verbose debug baseline names ss io_new = (written, Ok results) ->
  exists warned_about, err written = concat (map warning warned_about) /\ NoDup warned_about /\
    forall n, In n warned_about <->
      n <> lit "http1_gzip" /\ cannot_check unchecked names n /\ exists q msgs, In (q, msgs) ss /\ msgs <> [].
Proof.
  intros unchecked HU v debug base names ss o rs H. destruct (sessions_warn unchecked HU _ _ _ _ _ _ _ _ H) as (new & A & _ & C & D).
  exists new. split; [exact A|]. cbn [io_new warned app] in C, D.
  assert (N : NoDup (lit "http1_gzip" :: new)) by (apply D; repeat constructor; auto). inversion N as [|x l N1 N2]; subst.
  split; [exact N2|]. intros n. split.
  - intros I. split; [intros ->; contradiction|]. destruct (proj1 (C n) (or_intror I)) as [[E|[]]|K]; [|exact K]. subst n. contradiction.
  - intros [N3 K]. destruct (proj2 (C n) (or_intror K)) as [E|I]; [congruence|exact I].
Qed.
End Proofs.
Print Assumptions C106_same_results.
Print Assumptions C106_told.
Print Assumptions C106_quiet.
Print Assumptions C106_debug.
Print Assumptions C106_warnings.

(** ** The report of differences can be read back *)

(** Neither a line feed nor, in names, a colon followed by a blank. *)
Definition one_line (s : str) : Prop := ~ In 10 s.
Definition no_colon_blank (s : str) : Prop := forall a b, s <> a ++ 58 :: 32 :: b.
Definition tame (d : hdict) : Prop := forall k v, In (k, v) d -> one_line k /\ one_line v /\ no_colon_blank k.

Definition lacks (a b : hdict) (k y : str) : Prop := ~ ignored_name k /\ carries a k y /\ ~ carries b k y.

Lemma no_colon_blank_tail c s : no_colon_blank (c :: s) -> no_colon_blank s.
Proof. intros H a b E. apply (H (c :: a) b). now rewrite E. Qed.

Lemma item_injective : forall k k' v v', no_colon_blank k -> no_colon_blank k' ->
  k ++ 58 :: 32 :: v = k' ++ 58 :: 32 :: v' -> k = k' /\ v = v'.
Proof.
  induction k as [|c k IH]; intros [|c' k'] v v' H H' E; cbn [app] in E.
  - injection E as ->. auto.
  - injection E as <- E. destruct k' as [|c2 k2]; [discriminate|]. cbn [app] in E. injection E as <- E. exfalso. now apply (H' [] k2).
  - injection E as -> E. destruct k as [|c2 k2]; [discriminate|]. cbn [app] in E. injection E as -> E. exfalso. now apply (H [] k2).
  - injection E as <- E. destruct (IH k' v v' (no_colon_blank_tail _ _ H) (no_colon_blank_tail _ _ H') E) as [-> ->]. auto.
Qed.

Definition item (x : str * str) : str := let '(k, v) := x in [9] ++ k ++ lit ": " ++ v.
Definition tame_item (x : str * str) : Prop := one_line (fst x) /\ one_line (snd x) /\ no_colon_blank (fst x).

(** [X] does not begin with an item. *)
Definition other (X : list str) : Prop := match X with (9 :: _) :: _ => False | _ => True end.

Lemma items_split : forall A A' X X', Forall tame_item A -> Forall tame_item A' -> other X -> other X' ->
  map item A ++ X = map item A' ++ X' -> A = A' /\ X = X'.
Proof.
  induction A as [|[k v] A IH]; intros [|[k' v'] A'] X X' F F' O O' E; cbn [map app item] in E.
  - auto.
  - subst X. contradiction O.
  - subst X'. contradiction O'.
  - apply Forall_cons_iff in F, F'. destruct F as [(_ & _ & Fk) F], F' as [(_ & _ & Fk') F']. injection E as E1 E2.
    cbn [fst] in Fk, Fk'. destruct (item_injective k k' v v' Fk Fk' E1) as [-> ->].
    destruct (IH A' X X' F F' O O' E2) as [-> ->]. auto.
Qed.

Lemma report_other n A : other (report_only n A).
Proof. destruct A; cbn; exact I. Qed.

Lemma report_split n1 n2 A A' B B' : n1 <> n2 -> Forall tame_item A -> Forall tame_item A' -> Forall tame_item B -> Forall tame_item B' ->
  report_only n1 A ++ report_only n2 B = report_only n1 A' ++ report_only n2 B' -> A = A' /\ B = B'.
Proof.
  intros N FA FA' FB FB' E.
  assert (R : forall C C', Forall tame_item C -> Forall tame_item C' -> report_only n2 C = report_only n2 C' -> C = C').
  { intros [|x C] [|x' C'] F F' H; try reflexivity; try discriminate. cbn [report_only] in H. apply (f_equal (@tl str)) in H. cbn [tl] in H.
    change (map item (x :: C) = map item (x' :: C')) in H. rewrite <- (app_nil_r (map item (x :: C))), <- (app_nil_r (map item (x' :: C'))) in H.
    now apply items_split in H. }
  assert (T : forall x C Y n, report_only n (x :: C) ++ Y = (lit "Only found in: " ++ n) :: (map item (x :: C) ++ Y)) by reflexivity.
  destruct A as [|x A], A' as [|x' A'].
  - split; [reflexivity|]. now apply R.
  - exfalso. destruct B as [|y B]; [discriminate|]. rewrite T in E. cbn [report_only app] in E. apply (f_equal (@hd str [])) in E. cbn [hd] in E.
    apply app_inv_head in E. congruence.
  - exfalso. destruct B' as [|y B']; [discriminate|]. rewrite T in E. cbn [report_only app] in E. apply (f_equal (@hd str [])) in E. cbn [hd] in E.
    apply app_inv_head in E. congruence.
  - rewrite !T in E. apply (f_equal (@tl str)) in E. cbn [tl] in E. apply items_split in E; try assumption; try apply report_other.
    destruct E as [-> E]. split; [reflexivity|]. now apply R.
Qed.

Lemma tame_carries d k y : tame d -> carries d k y -> tame_item (k, y).
Proof.
  intros T (v & x & I & (_ & pre & post & E & _) & (l & r & E2 & _)). destruct (T k v I) as (A & B & C).
  split; [exact A|]. split; [|exact C]. cbn [snd]. intros J. apply B. rewrite E, E2. rewrite !in_app_iff. tauto.
Qed.

(** If nothing that is sent or received has a line feed in it and no name a colon
    followed by a blank, then the text says which pieces are on one side only. *)
Theorem C106_report_injective : forall ord ord' n1 n2 a b a' b', is_order ord -> is_order ord' ->
  n1 <> n2 -> one_line n1 -> one_line n2 -> tame a -> tame b -> tame a' -> tame b' ->
  compare_headers ord a n1 b n2 = compare_headers ord' a' n1 b' n2 ->
  forall k y, (lacks a b k y <-> lacks a' b' k y) /\ (lacks b a k y <-> lacks b' a' k y).
Proof.
  intros ord ord' n1 n2 a b a' b' HO HO' N L1 L2 Ta Tb Ta' Tb' E k y.
  pose proof (impl_only a b) as P. pose proof (impl_only a' b') as P'. unfold compare_headers in E.
  destruct (compare_headers_impl a b compare_ignores) as [A B]. destruct (compare_headers_impl a' b' compare_ignores) as [A' B'].
  cbn [fst snd] in P, P'.
  assert (F : forall o C, is_order o -> (forall k y, In (k, y) C -> tame_item (k, y)) -> Forall tame_item (o C)).
  { intros o C Ho H. apply Forall_forall. intros [k0 y0] I. apply H. now apply (Permutation_in _ (Ho C)). }
  assert (FA : Forall tame_item (ord A)) by (apply F; [exact HO|]; intros k0 y0 I; apply P in I; now apply (tame_carries a)).
  assert (FB : Forall tame_item (ord B)) by (apply F; [exact HO|]; intros k0 y0 I; apply P in I; now apply (tame_carries b)).
  assert (FA' : Forall tame_item (ord' A')) by (apply F; [exact HO'|]; intros k0 y0 I; apply P' in I; now apply (tame_carries a')).
  assert (FB' : Forall tame_item (ord' B')) by (apply F; [exact HO'|]; intros k0 y0 I; apply P' in I; now apply (tame_carries b')).
  assert (ONE : forall n C, one_line n -> Forall tame_item C -> Forall (fun l : str => ~ In 10 l /\ l <> []) (report_only n C)).
  { intros n C Hn HC. destruct C as [|x C]; [constructor|]. constructor.
    - split; [|discriminate]. rewrite in_app_iff. intros [J|J]; [|now apply Hn].
      cbv [lit] in J. cbn in J. repeat (destruct J as [J|J]; [discriminate|]). contradiction.
    - change (Forall (fun l : str => ~ In 10 l /\ l <> []) (map item (x :: C))). apply Forall_map. eapply Forall_impl; [|exact HC].
      intros [k0 y0] (Hk & Hy & _). split; [|discriminate]. unfold item. cbn [fst snd] in Hk, Hy. rewrite !in_app_iff.
      intros [[J|[]]|[J|[J|J]]]; [discriminate|now apply Hk| |now apply Hy].
      cbv [lit] in J. cbn in J. repeat (destruct J as [J|J]; [discriminate|]). contradiction. }
  assert (K : report_only n1 (ord A) ++ report_only n2 (ord B) = report_only n1 (ord' A') ++ report_only n2 (ord' B')).
  { pose proof (proj2 (Forall_app _ _ _) (conj (ONE n1 _ L1 FA) (ONE n2 _ L2 FB))) as Q.
    pose proof (proj2 (Forall_app _ _ _) (conj (ONE n1 _ L1 FA') (ONE n2 _ L2 FB'))) as Q'.
    revert E Q Q'. generalize (report_only n1 (ord A) ++ report_only n2 (ord B)) (report_only n1 (ord' A') ++ report_only n2 (ord' B')).
    intros l l' E Q Q'.
    assert (Z : forall m, Forall (fun l : str => ~ In 10 l /\ l <> []) m -> join [10] m = [] -> m = []).
    { intros [|x m] HF HJ; [reflexivity|]. exfalso. apply Forall_cons_iff in HF. destruct HF as [[_ HF] _].
      destruct x; [contradiction|]. destruct m; discriminate. }
    destruct l as [|x l]; [symmetry; apply Z; [exact Q'|now rewrite <- E]|].
    destruct l' as [|x' l']; [apply Z; [exact Q|now rewrite E]|].
    rewrite <- (split_on_join 10 (x :: l)), <- (split_on_join 10 (x' :: l')).
    - now rewrite E.
    - discriminate.
    - eapply Forall_impl; [|exact Q']. intros z [J _]. exact J.
    - discriminate.
    - eapply Forall_impl; [|exact Q]. intros z [J _]. exact J. }
  apply report_split in K; try assumption. destruct K as [KA KB].
  assert (IA : In (k, y) A <-> In (k, y) A') by (split; intros J;
    [apply (Permutation_in _ (HO' A')); rewrite <- KA; apply (Permutation_in _ (Permutation_sym (HO A)))
    |apply (Permutation_in _ (HO A)); rewrite KA; apply (Permutation_in _ (Permutation_sym (HO' A')))]; exact J).
  assert (IB : In (k, y) B <-> In (k, y) B') by (split; intros J;
    [apply (Permutation_in _ (HO' B')); rewrite <- KB; apply (Permutation_in _ (Permutation_sym (HO B)))
    |apply (Permutation_in _ (HO B)); rewrite KB; apply (Permutation_in _ (Permutation_sym (HO' B')))]; exact J).
  unfold lacks. destruct (P k y) as [P1 P2], (P' k y) as [P1' P2']. rewrite <- P1, <- P1', <- P2, <- P2'. auto.
Qed.
Print Assumptions C106_report_injective.

(** A value with a line feed in it forges a line of the report. *)
Theorem C106_report_refuted : exists a b a' b',
  compare_headers (fun l => l) a (lit "orig") b (lit "p") = compare_headers (fun l => l) a' (lit "orig") b' (lit "p") /\
  ~ (lacks a b (lit "y") (lit "2") <-> lacks a' b' (lit "y") (lit "2")).
Proof.
  exists [(lit "x", lit "1" ++ [10; 9] ++ lit "y: 2")], [], [(lit "x", lit "1"); (lit "y", lit "2")], [].
  split; [vm_compute; reflexivity|]. unfold lacks. intros [_ H].
  destruct H as (_ & H & _).
  - split; [|split].
    + intros [K|[K|K]]; discriminate.
    + apply carries_split. exists (lit "2"). split; [right; now left|]. vm_compute. auto.
    + intros (v & x & [] & _).
  - apply carries_split in H. destruct H as (v & [H|[]] & _). discriminate.
Qed.
Print Assumptions C106_report_refuted.

(** ** A case *)

(** Three codecs: one is right, one loses the header b, one cannot decompress. *)
Definition demo_compress (m : str) (s : N) (d : hdict) (host : str) : res (N * str) := Ok (s + 1, http1_compress d).
Definition demo_decompress (m : str) (s : N) (c : str) : res (N * option hdict) :=
  if str_eqb m (lit "none") then Ok (s, None)
  else let* d := http1_decompress true c in
       Ok (s, Some (if str_eqb m (lit "lossy") then filter (fun kv => negb (str_eqb (fst kv) (lit "b"))) d else d)).
Definition demo_msg (b : str) : hdict :=
  [(lit ":method", lit "get"); (lit ":path", lit "/"); (lit ":version", lit "HTTP/1.1"); (lit ":host", lit "h"); (lit "b", b)].
Definition demo (v : Z) (debug : bool) : io * res _ :=
  process_sessions_io N (fun _ _ _ => Ok 0) demo_compress demo_decompress (fun l => l) v debug (lit "http1")
    (map lit ["http1"; "lossy=x"; "none"]%string) [(true, [(demo_msg (lit "1"), lit "h"); (demo_msg (lit "2"), lit "h")]); (false, [])] io_new.

Example C106_levels :
  (out (fst (demo 0 false)), err (fst (demo 0 false))) =
    (lit "  - mismatch in lossy (x)" ++ [10] ++ lit "  - mismatch in lossy (x)" ++ [10],
     lit "  WARNING: none decompression not checked." ++ [10]) /\
  out (fst (demo 0 true)) = lit "  - mismatch in lossy (x)" ++ [10] /\ snd (demo 0 true) = Err SystemExit /\
  out (fst (demo 2 true)) =
    lit "  - mismatch in lossy (x):" ++ [10] ++ lit "Only found in: orig" ++ [10; 9] ++ lit "b: 1" ++ [10; 10] /\
  out (fst (demo 4 true)) =
    repeat 35 80 ++ [10] ++ lit "# http1 request 1 (of 2) for h" ++ [10] ++
    lit "get / HTTP/1.1" ++ [13; 10] ++ lit "b: 1" ++ [13; 10] ++ lit "host: h" ++ [13; 10; 13; 10] ++
    lit "# lossy (x) request 1 (of 2) for h" ++ [10] ++
    lit "get / HTTP/1.1" ++ [13; 10] ++ lit "host: h" ++ [13; 10; 13; 10] ++
    lit "  - mismatch in lossy (x):" ++ [10] ++ lit "Only found in: orig" ++ [10; 9] ++ lit "b: 1" ++ [10; 10].
Proof. repeat split; vm_compute; reflexivity. Qed.
