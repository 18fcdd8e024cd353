(** * Property C115: delta2's letter counts. *)
From Coq Require Import String List NArith ZArith Bool Arith Lia.
From Verif Require Import PyBase PyNum D2Wire_Model D2Code_Model PyStr WF_Model.
Import ListNotations.
Open Scope N_scope.
Open Scope py_scope.

(** ** What should be counted: the strings of the operations of the calls with a
    description, in order. *)
Definition strings_of (o : op) : list str :=
  match o with OToggl _ _ | OTrang _ _ _ => [] | OClone _ _ v => [v] | OKvsto _ k v => [k; v] end.
Definition strings_for (d : str) (calls : list (str * list op)) : list str :=
  flat_map (fun call => if str_eqb (fst call) d then flat_map strings_of (snd call) else []) calls.
Definition occurrences (c : N) (s : str) : N := lenN (filter (N.eqb c) s).
Definition octets (s : str) : Prop := Forall (fun c => c < 256) s.

(** *** Proofs *)

Definition count_at (l : list N) (c : N) : N := nth (N.to_nat c) l 0.

Lemma update_nth_length {A} (f : A -> A) l : forall i, length (update_nth i f l) = length l.
Proof. induction l as [|x l IH]; intros [|i]; cbn; auto. Qed.
Lemma nth_update_nth l : forall i j, (i < length l)%nat -> nth j (update_nth i (fun n => n + 1) l) 0 = nth j l 0 + (if Nat.eqb i j then 1 else 0).
Proof.
  induction l as [|x l IH]; intros i j H; [cbn in H; lia|]. destruct i as [|i], j as [|j]; cbn [update_nth nth Nat.eqb]; try lia.
  apply IH. cbn in H. lia.
Qed.

Lemma bump_ok l i : i < lenN l -> exists l', bump l i = Ok l' /\ lenN l' = lenN l /\
  forall c, count_at l' c = count_at l c + (if i =? c then 1 else 0).
Proof.
  intros H. unfold bump. replace (i <? lenN l) with true by (symmetry; now apply N.ltb_lt). eexists. split; [reflexivity|]. split.
  - unfold lenN. now rewrite update_nth_length.
  - intros c. unfold count_at. rewrite nth_update_nth by (unfold lenN in H; lia).
    replace (Nat.eqb (N.to_nat i) (N.to_nat c)) with (i =? c); [reflexivity|]. destruct (N.eqb_spec i c) as [->|Hn]; [symmetry; apply Nat.eqb_refl|].
    symmetry. apply Nat.eqb_neq. lia.
Qed.

Lemma bump_all_ok s : octets s -> forall l, lenN l = 257 -> exists l', bump_all l s = Ok l' /\ lenN l' = 257 /\
  forall c, count_at l' c = count_at l c + occurrences c s.
Proof.
  induction 1 as [|x s Hx Hs IH]; intros l Hl; cbn [bump_all].
  - exists l. split; [reflexivity|]. split; [exact Hl|]. intros c. unfold occurrences, lenN. cbn. lia.
  - destruct (bump_ok l x ltac:(lia)) as (l1 & E1 & L1 & C1). rewrite E1. cbn [bind]. destruct (IH l1 ltac:(lia)) as (l2 & E2 & L2 & C2).
    exists l2. split; [exact E2|]. split; [exact L2|]. intros c. rewrite C2, C1. unfold occurrences. cbn [filter]. rewrite (N.eqb_sym x c).
    destruct (c =? x); unfold lenN; cbn [length]; lia.
Qed.

Lemma bump_len_ok d n m : len_count (bump_len d n) m = len_count d m + (if n =? m then 1 else 0).
Proof.
  induction d as [|[k c] d IH]; cbn [bump_len len_count].
  - rewrite (N.eqb_sym m n). destruct (n =? m); reflexivity.
  - destruct (N.eqb_spec n k) as [->|Hn]; cbn [len_count].
    + rewrite (N.eqb_sym k m). destruct (m =? k); lia.
    + destruct (N.eqb_spec m k) as [->|Hm]; [|exact IH]. replace (n =? k) with false by (symmetry; now apply N.eqb_neq). lia.
Qed.

(** The counts of [w] are those of [w0] and of the strings. *)
Definition counted (w0 w : wf) (ss : list str) : Prop :=
  lenN (w_chars w) = 257 /\
  (forall c, c < 256 -> count_at (w_chars w) c = count_at (w_chars w0) c + occurrences c (concat ss)) /\
  count_at (w_chars w) 256 = count_at (w_chars w0) 256 + lenN ss /\
  (forall n, len_count (w_lens w) n = len_count (w_lens w0) n + lenN (filter (fun s => lenN s =? n) ss)).

Lemma occurrences_app c a b : occurrences c (a ++ b) = occurrences c a + occurrences c b.
Proof. unfold occurrences, lenN. rewrite filter_app, app_length. lia. Qed.
Lemma occurrences_256 s : octets s -> occurrences 256 s = 0.
Proof.
  induction 1 as [|x s Hx Hs IH]; [reflexivity|]. unfold occurrences in *. cbn [filter]. replace (256 =? x) with false by (symmetry; apply N.eqb_neq; lia). exact IH.
Qed.

Lemma look_str_ok w s : lenN (w_chars w) = 257 -> octets s -> exists w', look_str w s = Ok w' /\ counted w w' [s].
Proof.
  intros Hl Hs. unfold look_str. destruct (bump_ok (w_chars w) 256 ltac:(lia)) as (l1 & E1 & L1 & C1). rewrite E1. cbn [bind].
  destruct (bump_all_ok s Hs l1 ltac:(lia)) as (l2 & E2 & L2 & C2). rewrite E2. cbn [bind]. eexists. split; [reflexivity|].
  unfold counted. cbn [w_chars w_lens concat filter]. rewrite app_nil_r. split; [exact L2|]. split; [|split].
  - intros c Hc. rewrite C2, C1. replace (256 =? c) with false by (symmetry; apply N.eqb_neq; lia). lia.
  - rewrite C2, C1, occurrences_256 by exact Hs. change (lenN [s]) with 1. rewrite N.eqb_refl. lia.
  - intros n. rewrite bump_len_ok. destruct (lenN s =? n); reflexivity.
Qed.

Lemma counted_refl w : lenN (w_chars w) = 257 -> counted w w [].
Proof.
  intros H. split; [exact H|]. unfold occurrences, lenN. cbn [concat filter length]. change (N.of_nat 0) with 0.
  split; [intros; lia|]. split; [lia|intros; lia].
Qed.
Lemma counted_trans w0 w1 w2 a b : counted w0 w1 a -> counted w1 w2 b -> counted w0 w2 (a ++ b).
Proof.
  intros (_ & A2 & A3 & A4) (B1 & B2 & B3 & B4). split; [exact B1|]. split; [|split].
  - intros c Hc. rewrite B2, A2 by exact Hc. rewrite concat_app, occurrences_app. lia.
  - rewrite B3, A3. unfold lenN. rewrite app_length. lia.
  - intros n. rewrite B4, A4, filter_app. unfold lenN at 5. rewrite app_length, Nat2N.inj_add. apply eq_sym, N.add_assoc.
Qed.

Lemma look_op_ok w o : lenN (w_chars w) = 257 -> Forall octets (strings_of o) -> exists w', look_op w o = Ok w' /\ counted w w' (strings_of o).
Proof.
  intros Hl HF. destruct o as [e i|e i s|e i v|e k v]; cbn [look_op strings_of] in *.
  - exists w. split; [reflexivity|now apply counted_refl].
  - exists w. split; [reflexivity|now apply counted_refl].
  - inversion HF; subst. now apply look_str_ok.
  - inversion HF as [|? ? H1 H2]; subst. inversion H2; subst. destruct (look_str_ok w k Hl H1) as (w1 & E1 & C1). rewrite E1. cbn [bind].
    destruct (look_str_ok w1 v) as (w2 & E2 & C2); [apply C1|assumption|]. exists w2. split; [exact E2|]. exact (counted_trans _ _ _ _ _ C1 C2).
Qed.

Lemma look_at_ok ops : forall w, lenN (w_chars w) = 257 -> Forall octets (flat_map strings_of ops) ->
  exists w', look_at w ops = Ok w' /\ counted w w' (flat_map strings_of ops).
Proof.
  induction ops as [|o ops IH]; intros w Hl HF; cbn [look_at flat_map] in *.
  - exists w. split; [reflexivity|now apply counted_refl].
  - apply Forall_app in HF. destruct HF as [H1 H2]. destruct (look_op_ok w o Hl H1) as (w1 & E1 & C1). rewrite E1. cbn [bind].
    destruct (IH w1) as (w2 & E2 & C2); [apply C1|exact H2|]. exists w2. split; [exact E2|]. exact (counted_trans _ _ _ _ _ C1 C2).
Qed.

Definition stat (st : stats) (d : str) : wf := match dget st d with Some w => w | None => wf_new end.

Lemma dget_dset_wf (st : stats) k w d : dget (dset st k w) d = if str_eqb d k then Some w else dget st d.
Proof. rewrite dget_dset. destruct (str_eqb_spec k d), (str_eqb_spec d k); congruence. Qed.

Lemma process_all_ok calls : forall st, (forall d, lenN (w_chars (stat st d)) = 257) ->
  Forall (fun call => Forall octets (flat_map strings_of (snd call))) calls ->
  exists st', process_all st calls = Ok st' /\ forall d, counted (stat st d) (stat st' d) (strings_for d calls).
Proof.
  induction calls as [|[k ops] calls IH]; intros st Hl HF; cbn [process_all].
  - exists st. split; [reflexivity|]. intros d. now apply counted_refl.
  - inversion HF as [|? ? H1 H2]; subst. cbn [snd] in H1. unfold process. fold (stat st k).
    destruct (look_at_ok ops (stat st k) (Hl k) H1) as (w & E & C). rewrite E. cbn [bind].
    assert (Hst : forall d, counted (stat st d) (stat (dset st k w) d) (if str_eqb k d then flat_map strings_of ops else [])).
    { intros d. unfold stat at 2. rewrite dget_dset_wf. destruct (str_eqb_spec d k) as [->|Hn].
      - now rewrite str_eqb_refl.
      - destruct (str_eqb_spec k d); [congruence|]. apply counted_refl. apply Hl. }
    destruct (IH (dset st k w)) as (st' & E' & C'); [intros d; apply (Hst d)|exact H2|]. exists st'. split; [exact E'|].
    intros d. exact (counted_trans _ _ _ _ _ (Hst d) (C' d)).
Qed.

(** ** The counts kept for a description are exact: of every octet how often it
    stands in the keys and values of the operations made, at 256 how many strings
    there were, and of every length how many had it.  Looking never raises. *)
Theorem C115_counts : forall calls, Forall (fun call => Forall octets (flat_map strings_of (snd call))) calls ->
  exists st, process_all [] calls = Ok st /\ forall d,
    let ss := strings_for d calls in
    length (w_chars (stat st d)) = 257%nat /\
    (forall c, c < 256 -> nth (N.to_nat c) (w_chars (stat st d)) 0 = occurrences c (concat ss)) /\
    nth 256 (w_chars (stat st d)) 0 = lenN ss /\
    (forall n, len_count (w_lens (stat st d)) n = lenN (filter (fun s => lenN s =? n) ss)).
Proof.
  intros calls HF. destruct (process_all_ok calls [] ltac:(intros d; reflexivity) HF) as (st & E & H). exists st. split; [exact E|]. intros d.
  destruct (H d) as (H1 & H2 & H3 & H4). change (stat [] d) with wf_new in *. cbv zeta.
  assert (H0 : forall c, count_at (w_chars wf_new) c = 0).
  { intros c. unfold count_at, wf_new. cbn [w_chars]. assert (HR : forall n m, nth m (repeat 0 n) 0 = 0) by (induction n as [|n IH]; intros [|m]; cbn [repeat nth]; auto). apply HR. }
  split; [unfold lenN in H1; lia|]. split; [|split].
  - intros c Hc. specialize (H2 c Hc). rewrite H0, N.add_0_l in H2. exact H2.
  - rewrite H0, N.add_0_l in H3. exact H3.
  - intros n. rewrite H4. reflexivity.
Qed.
Print Assumptions C115_counts.

(** ** Strings of the HAR reader can have characters beyond those: one above 256
    raises IndexError. *)
Definition narrow (ss : list str) : bool := forallb (forallb (fun c => c <? 257)) ss.
Definition goes {A} (len : A -> N) (r : res A) (b : bool) : Prop :=
  if b then exists x, r = Ok x /\ len x = 257 else r = Err IndexError.

Lemma bump_goes l i : lenN l = 257 -> goes lenN (bump l i) (i <? 257).
Proof.
  intros H. unfold goes, bump. rewrite H. destruct (i <? 257); [|reflexivity]. eexists. split; [reflexivity|]. unfold lenN in *. rewrite update_nth_length. exact H.
Qed.
Lemma bump_all_goes s : forall l, lenN l = 257 -> goes lenN (bump_all l s) (forallb (fun c => c <? 257) s).
Proof.
  induction s as [|c s IH]; intros l H; cbn [bump_all forallb]; [exists l; auto|]. pose proof (bump_goes l c H) as G. unfold goes in G.
  destruct (c <? 257); cbn [andb]; [|rewrite G; reflexivity]. destruct G as (x & -> & Hx). cbn [bind]. now apply IH.
Qed.
Definition wlen (w : wf) : N := lenN (w_chars w).
Lemma look_str_goes w s : wlen w = 257 -> goes wlen (look_str w s) (narrow [s]).
Proof.
  intros H. unfold look_str, narrow. cbn [forallb]. rewrite andb_true_r. pose proof (bump_goes (w_chars w) 256 H) as G. change (256 <? 257) with true in G.
  destruct G as (x & -> & Hx). cbn [bind]. pose proof (bump_all_goes s x Hx) as G. unfold goes in *. destruct (forallb _ s).
  - destruct G as (y & -> & Hy). cbn [bind]. eexists. split; [reflexivity|exact Hy].
  - rewrite G. reflexivity.
Qed.
Lemma look_op_goes w o : wlen w = 257 -> goes wlen (look_op w o) (narrow (strings_of o)).
Proof.
  intros H. destruct o as [e i|e i s|e i v|e k v]; cbn [look_op strings_of]; try (exists w; auto; fail); [now apply look_str_goes|].
  pose proof (look_str_goes w k H) as G. unfold narrow in G |- *. cbn [forallb] in G |- *. rewrite andb_true_r in G. rewrite andb_true_r. unfold goes in G.
  destruct (forallb _ k); cbn [andb].
  - destruct G as (x & -> & Hx). cbn [bind]. pose proof (look_str_goes x v Hx) as G. unfold narrow in G. cbn [forallb] in G. now rewrite andb_true_r in G.
  - rewrite G. reflexivity.
Qed.
Lemma narrow_app a b : narrow (a ++ b) = narrow a && narrow b.
Proof. apply forallb_app. Qed.
Lemma look_at_goes ops : forall w, wlen w = 257 -> goes wlen (look_at w ops) (narrow (flat_map strings_of ops)).
Proof.
  induction ops as [|o ops IH]; intros w H; cbn [look_at flat_map]; [exists w; auto|]. rewrite narrow_app.
  pose proof (look_op_goes w o H) as G. unfold goes in G. destruct (narrow (strings_of o)); cbn [andb]; [|rewrite G; reflexivity].
  destruct G as (x & -> & Hx). cbn [bind]. now apply IH.
Qed.

Theorem C115_wide : forall calls, process_all [] calls = Err IndexError <->
  narrow (flat_map (fun call => flat_map strings_of (snd call)) calls) = false.
Proof.
  intros calls. assert (H : forall st, (forall d, wlen (stat st d) = 257) ->
    if narrow (flat_map (fun call => flat_map strings_of (snd call)) calls) then exists st', process_all st calls = Ok st' else process_all st calls = Err IndexError).
  { induction calls as [|[k ops] calls IH]; intros st Hst; cbn [process_all flat_map snd]; [eexists; reflexivity|].
    unfold process. fold (stat st k). pose proof (look_at_goes ops (stat st k) (Hst k)) as G. rewrite narrow_app. unfold goes in G.
    destruct (narrow (flat_map strings_of ops)); cbn [andb]; [|rewrite G; reflexivity]. destruct G as (w & -> & Hw). cbn [bind]. apply IH.
    intros d. unfold stat. rewrite dget_dset_wf. destruct (str_eqb d k); [exact Hw|]. apply (Hst d). }
  specialize (H [] ltac:(intros d; reflexivity)). destruct (narrow _).
  - destruct H as (st & ->). split; discriminate.
  - rewrite H. split; reflexivity.
Qed.
Print Assumptions C115_wide.

Example C115_wide_case : process_all [] [(lit "request", [OClone false 3%Z (lit "5 " ++ [8364])])] = Err IndexError.
Proof. reflexivity. Qed.

(** ** SortedByFreq: "sorts the letters by how often they occurred" is false: it
    always raises, chr(256) being no character. *)
Lemma mapm_err {A B} (f : A -> res B) a x l e : (forall y, In y a -> exists z, f y = Ok z) -> f x = Err e -> mapm f (a ++ x :: l) = Err e.
Proof.
  induction a as [|y a IH]; intros Ha E; cbn [app mapm]; [now rewrite E|]. destruct (Ha y (or_introl eq_refl)) as (z & Ez). rewrite Ez. cbn [bind].
  rewrite IH; [reflexivity| |exact E]. intros y' Hy. apply Ha. now right.
Qed.

Lemma combine_app_ {A B} (a b : list A) (c d : list B) : length a = length c -> combine (a ++ b) (c ++ d) = combine a c ++ combine b d.
Proof. revert c. induction a as [|x a IH]; intros [|y c] H; try discriminate; [reflexivity|]. cbn [app combine]. f_equal. apply IH. now injection H. Qed.

Theorem C115_sorted_refuted : forall w, length (w_chars w) = 257%nat -> by_freq w = Err ValueError.
Proof.
  intros w Hl. unfold by_freq. rewrite Hl.
  destruct (rev (w_chars w)) as [|x r] eqn:Er.
  { apply (f_equal (@length N)) in Er. rewrite rev_length, Hl in Er. discriminate. }
  assert (Ew : w_chars w = rev r ++ [x]) by (rewrite <- (rev_involutive (w_chars w)), Er; reflexivity).
  assert (Lr : length (rev r) = 256%nat) by (rewrite Ew, app_length in Hl; cbn in Hl; lia). rewrite Ew.
  change 257%nat with (256 + 1)%nat. rewrite seq_app, map_app, combine_app_ by (rewrite map_length, seq_length; now rewrite Lr).
  change (combine (map N.of_nat (seq (0 + 256) 1)) [x]) with [(256, x)]. apply mapm_err; [|reflexivity]. intros [i n] Hi. apply in_combine_l in Hi. apply in_map_iff in Hi. destruct Hi as (j & <- & Hj).
  apply in_seq in Hj. exists (N.of_nat j, n). cbn [fst snd]. unfold py_chr. replace (N.of_nat j <? 256) with true by (symmetry; apply N.ltb_lt; lia). reflexivity.
Qed.
Print Assumptions C115_sorted_refuted.

(** ** The text: a list of the 257 pairs in order, in indented lines each of which
    takes as many as go into sixty columns. *)

(** What a line holds and the next pair goes not with it. *)
Definition line_of (l : list str) : str := lit "  " ++ concat l.
Fixpoint tight (lines : list (list str)) : Prop :=
  match lines with
  | [] => True
  | l :: r => match r with (p :: _) :: _ => (60 < length (line_of l) + length p)%nat | _ => True end /\ tight r
  end.

Lemma wf_lines_ok pairs : forall acc, Forall (fun p => p <> [] /\ (length p <= 58)%nat) (acc ++ pairs) -> (length (line_of acc) <= 60)%nat ->
  exists lines, wf_lines (line_of acc) pairs = map line_of lines /\ concat lines = acc ++ pairs /\
    Forall (fun l => l <> [] /\ (length (line_of l) <= 60)%nat) lines /\ tight lines /\
    match lines with [] => acc = [] | l :: _ => exists m, l = acc ++ m end.
Proof.
  induction pairs as [|p pairs IH]; intros acc HF Hl; cbn [wf_lines].
  - rewrite app_nil_r in *. destruct acc as [|a acc].
    + exists []. cbn. repeat split; constructor.
    + destruct (str_eqb_spec (line_of (a :: acc)) (lit "  ")) as [E|_].
      { exfalso. inversion HF as [|? ? [Ha _] _]; subst. apply Ha. unfold line_of in E. cbn [concat] in E. rewrite <- (app_nil_r (lit "  ")) in E at 2.
        apply app_inv_head in E. now apply app_eq_nil in E. }
      exists [a :: acc]. cbn [map concat]. rewrite app_nil_r. repeat split; try constructor; try (split; [discriminate|exact Hl]); try constructor.
      exists []. now rewrite app_nil_r.
  - assert (Hp : p <> [] /\ (length p <= 58)%nat) by (apply Forall_app in HF; destruct HF as [_ HF]; now inversion HF).
    destruct (Nat.ltb_spec 60 (length p + length (line_of acc))) as [Hf|Hf].
    + replace (lit "  " ++ p) with (line_of [p]) by (unfold line_of; cbn [concat]; now rewrite app_nil_r).
      destruct (IH [p]) as (lines & E1 & E2 & E3 & E4 & E5).
      { apply Forall_app in HF. cbn [app]. apply HF. }
      { unfold line_of. cbn [concat]. rewrite app_nil_r, app_length. change (length (lit "  ")) with 2%nat. lia. }
      destruct lines as [|l lines]; [discriminate|]. destruct E5 as (m & ->).
      exists (acc :: ([p] ++ m) :: lines). rewrite E1. cbn [map]. split; [reflexivity|]. split; [|split; [|split]].
      * exact (f_equal (app acc) E2).
      * constructor; [|exact E3]. split; [|exact Hl]. intros ->. unfold line_of in Hf. cbn [concat] in Hf. rewrite app_nil_r in Hf. change (length (lit "  ")) with 2%nat in Hf. lia.
      * cbn [tight app]. split; [lia|exact E4].
      * exists []. now rewrite app_nil_r.
    + assert (El : line_of acc ++ p = line_of (acc ++ [p])) by (unfold line_of; rewrite concat_app; cbn [concat]; now rewrite app_nil_r, app_assoc). rewrite El.
      destruct (IH (acc ++ [p])) as (lines & E1 & E2 & E3 & E4 & E5).
      { now rewrite <- app_assoc. }
      { rewrite <- El, app_length. lia. }
      exists lines. split; [exact E1|]. split; [now rewrite E2, <- app_assoc|]. split; [exact E3|]. split; [exact E4|].
      destruct lines as [|l lines]; [now apply app_eq_nil in E5|]. destruct E5 as (m & ->). exists (p :: m). now rewrite <- app_assoc.
Qed.

Theorem C115_table_text : forall w, Forall (fun p => (length p <= 58)%nat) (pairs_of (w_chars w)) ->
  exists lines, wf_repr w = join [10] (lit "[" :: map line_of lines ++ [lit "]"]) /\
    concat lines = pairs_of (w_chars w) /\ Forall (fun l => l <> [] /\ (length (line_of l) <= 60)%nat) lines /\ tight lines.
Proof.
  intros w H. destruct (wf_lines_ok (pairs_of (w_chars w)) []) as (lines & E1 & E2 & E3 & E4 & _).
  - cbn [app]. apply Forall_forall. intros p Hp. split; [|exact (proj1 (Forall_forall _ _) H p Hp)]. unfold pairs_of in Hp.
    apply in_map_iff in Hp. destruct Hp as (q & <- & _). discriminate.
  - cbn. lia.
  - exists lines. split; [|auto]. unfold wf_repr. now rewrite <- E1.
Qed.
Print Assumptions C115_table_text.

(** ** Two messages, and the beginning of the table *)
Example C115_case : exists st, process_all [] [
    (lit "request", [OKvsto false (lit "a") (lit "bab"); OToggl false 3%Z; OClone true 7%Z (lit "b'")]);
    (lit "response", [OKvsto false (lit "x") (lit "y")])] = Ok st /\
  let w := stat st (lit "request") in
  nth 97 (w_chars w) 0 = 2 /\ nth 98 (w_chars w) 0 = 3 /\ nth 39 (w_chars w) 0 = 1 /\ nth 256 (w_chars w) 0 = 3 /\ w_lens w = [(1, 1); (3, 1); (2, 1)] /\
  by_freq w = Err ValueError /\
  forallb (fun p => (length p <=? 58)%nat) (pairs_of (w_chars w)) = true /\
  nth 6 (wf_lines (lit "  ") (pairs_of (w_chars w))) [] = lit "  (  30, 0),(  31, 0),( ' ', 0),( '!', 0),( '""', 0)," /\
  nth 7 (wf_lines (lit "  ") (pairs_of (w_chars w))) [] = lit "  ( '#', 0),( '$', 0),( '%', 0),( '&', 0),( ""'"", 1),".
Proof. eexists. split; [vm_compute; reflexivity|]. vm_compute. repeat split; reflexivity. Qed.

(** Counts stand in columns. *)
Example C115_columns_case : exists st, process_all [] [(lit "request", [OClone true 7%Z (lit "aaaaaaaaaab")])] = Ok st /\
  let l := wf_lines (lit "  ") (pairs_of (w_chars (stat st (lit "request")))) in
  nth 19 l [] = lit "  ( '_',  0),( '`',  0),( 'a', 10),( 'b',  1),( 'c',  0)," /\ nth 51 l [] = lit "  ( 255,  0),( 256,  1),".
Proof. eexists. split; [vm_compute; reflexivity|]. vm_compute. split; reflexivity. Qed.

(** ** Each pair of the table, read as Python reads it, is a symbol and its count. *)

(** What stands for a symbol: a text of one character between apostrophes or quotation marks,
    with a backslash before a backslash, if it can be printed; its number otherwise. *)
Inductive stands_for : str -> N -> Prop :=
| for_number i : i < 32 \/ 126 < i -> stands_for (dec i) i
| for_char q c : q = 39 \/ q = 34 -> 32 <= c <= 126 -> c <> q -> c <> 92 -> stands_for [q; c; q] c
| for_backslash q : q = 39 \/ q = 34 -> stands_for [q; 92; 92; q] 92.
(** Blanks before it, up to a width. *)
Definition padded (width : nat) (t s : str) : Prop := exists n, s = repeat 32 n ++ t /\ n = (width - length t)%nat.
Definition pair_reads (width : nat) (p : N * N) (s : str) : Prop :=
  exists a b t, s = lit "(" ++ a ++ lit ", " ++ b ++ lit ")," /\ stands_for t (fst p) /\ padded 4 t a /\ padded width (dec (snd p)) b.

Theorem C115_pairs : forall counts greatest, In greatest counts -> (forall n, In n counts -> n <= greatest) ->
  Forall2 (pair_reads (length (dec greatest))) (combine (map N.of_nat (seq 0 (length counts))) counts) (pairs_of counts).
Proof.
  intros l m Hm Hg. assert (Em : fold_left (fun m i => if m <? i then i else m) l 0 = m).
  { assert (G : forall l a, a <= fold_left (fun m i => if m <? i then i else m) l a /\ (forall n, In n l -> n <= fold_left (fun m i => if m <? i then i else m) l a) /\
      (fold_left (fun m i => if m <? i then i else m) l a = a \/ In (fold_left (fun m i => if m <? i then i else m) l a) l)).
    { clear. induction l as [|x l IH]; intros a; cbn [fold_left]; [split; [lia|split; [intros n []|now left]]|]. specialize (IH (if a <? x then x else a)). set (r := fold_left _ l _) in *. clearbody r.
      destruct (N.ltb_spec a x) as [L|L]; destruct IH as (A & B & C); (split; [lia|]); (split; [intros n [<-|Hn]; [lia|auto]|]); destruct C as [->|C]; try (right; right; exact C); [right; now left|now left]. }
    destruct (G l 0) as (_ & B & C). destruct C as [C|C]; [rewrite C in *; pose proof (B m Hm); lia|]. pose proof (B m Hm). pose proof (Hg _ C). lia. }
  unfold pairs_of. unfold freq_len at 1. rewrite Em. induction (combine (map N.of_nat (seq 0 (length l))) l) as [|[i n] r IH]; cbn [map]; constructor; [|exact IH].
  cbn [fst snd]. set (t := if (i <? 128) && ((32 <=? i) && (i <=? 126)) then repr_chr i else dec i). exists (sym_text i), (right (length (dec m)) (dec n)), t. split; [reflexivity|]. cbn [fst snd]. split; [|split].
  - unfold t. destruct (N.ltb_spec i 128), (N.leb_spec 32 i), (N.leb_spec i 126); cbn [andb]; try (apply for_number; lia). unfold repr_chr.
    destruct (N.eqb_spec i 39) as [->|A]; [apply (for_char 34); [now right|lia|discriminate|discriminate]|]. destruct (N.eqb_spec i 92) as [->|B]; [apply for_backslash; now left|]. apply for_char; [now left|lia|exact A|exact B].
  - exists (4 - length t)%nat. split; reflexivity.
  - exists (length (dec m) - length (dec n))%nat. split; reflexivity.
Qed.
Print Assumptions C115_pairs.
