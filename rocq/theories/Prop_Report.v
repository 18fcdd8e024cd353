(** * Property C102: the text of the reports. *)
From Coq Require Import String List NArith ZArith Bool Lia.
From Verif Require Import PyBase PyNum Params_Model SDate_Model SDate_Text Lib_Model Run_Model Run_Proofs Run_Report Lib_Spec Lib_Proofs Prop_Run Report_Model PyStr.
Import ListNotations.
Open Scope N_scope.

(** ** Specification *)

(** Digits in threes: thousands, a comma, and three digits. *)
Definition three (n : N) : str := [48 + n / 100; 48 + n / 10 mod 10; 48 + n mod 10].
Inductive commas : N -> str -> Prop :=
| commas_small n : n < 1000 -> commas n (dec n)
| commas_more q r s : 1 <= q -> r < 1000 -> commas q s -> commas (1000 * q + r) (s ++ lit "," ++ three r).

(** Reading a file of tab separated values: lines end with a newline. *)
Definition read_tsv (text : str) : list (list str) := map (split_on 9) (removelast (split_on 10 text)).
Definition no_tab_or_newline (s : str) : Prop := ~ In 9 s /\ ~ In 10 s.

(** ** Numbers in the summary *)
Lemma dec_step n : 10 <= n -> dec n = dec (n / 10) ++ [48 + n mod 10].
Proof.
  intros H. unfold dec. rewrite show_step by lia. replace (n / 10 =? 0) with false.
  2:{ symmetry. apply N.eqb_neq. intros E. apply N.div_small_iff in E; lia. }
  unfold digit_char. replace (n mod 10 <? 10) with true by (symmetry; apply N.ltb_lt; apply N.mod_lt; lia). reflexivity.
Qed.
Lemma dec_thousands n : 1000 <= n -> dec n = dec (n / 1000) ++ three (n mod 1000).
Proof.
  intros H. rewrite dec_step by lia. rewrite (dec_step (n / 10)) by (apply N.div_le_lower_bound; lia). rewrite N.div_div by lia. change (10 * 10) with 100.
  rewrite (dec_step (n / 100)) by (apply N.div_le_lower_bound; lia). rewrite N.div_div by lia. change (100 * 10) with 1000. unfold three. rewrite <- !app_assoc. cbn [app].
  f_equal. f_equal; [f_equal|f_equal; [f_equal|f_equal; f_equal]].
  all: zify; Z.to_euclidean_division_equations; lia.
Qed.
Lemma dec_short n : n < 1000 -> (1 <= length (dec n) <= 3)%nat.
Proof.
  intros H. split; [|apply show_length; [lia|exact H]]. pose proof (show_nonempty 10 n) as Hn. unfold dec. destruct (show 10 n); [contradiction|cbn; lia].
Qed.
Lemma three_digits n : digits (three n) \/ 1000 <= n.
Proof.
  destruct (N.lt_ge_cases n 1000) as [H|H]; [left|now right]. unfold digits, three.
  repeat constructor; unfold is_digit; apply andb_true_iff; split; apply N.leb_le; zify; Z.to_euclidean_division_equations; lia.
Qed.

Lemma rev_digits s : digits s -> digits (rev s).
Proof. intros H. apply Forall_rev. exact H. Qed.
Lemma blanks_rev k : rev (repeat 32 k : str) = repeat 32 k.
Proof.
  induction k as [|k IH]; [reflexivity|]. cbn [repeat rev]. rewrite IH. clear. induction k as [|k IH]; [reflexivity|]. cbn [repeat app]. now rewrite IH.
Qed.

(** What the loop makes of a number with blanks in front. *)
Definition shown_groups (g : list str) (l : str) : str := rev l ++ join [44] (rev (map (@rev N) g)).
Lemma join_snoc (c : str) l x : l <> [] -> join c (l ++ [x]) = join c l ++ c ++ x.
Proof.
  induction l as [|y l IH]; intros H; [contradiction|]. destruct l as [|z l]; [reflexivity|].
  change ((y :: z :: l) ++ [x]) with (y :: ((z :: l) ++ [x])). change (join c (y :: (z :: l) ++ [x])) with (y ++ c ++ join c ((z :: l) ++ [x])).
  rewrite IH by discriminate. change (join c (y :: z :: l)) with (y ++ c ++ join c (z :: l)). now rewrite <- !app_assoc.
Qed.

Lemma group_small D k fuel : digits D -> (1 <= length D <= 3)%nat -> (1 <= fuel)%nat -> exists g l, group_loop fuel (rev D ++ repeat 32 k) = (g, l) /\ length g = 1%nat /\ shown_groups g l = repeat 32 k ++ D.
Proof.
  intros HD HL HF. destruct fuel as [|fuel]; [lia|]. set (r := rev D ++ repeat 32 k).
  assert (R : exists c t, r = c :: t /\ is_digit c = true).
  { unfold r. pose proof (rev_digits D HD) as HR. destruct (rev D) as [|c t] eqn:E; [apply (f_equal (@length N)) in E; rewrite rev_length in E; cbn in E; lia|].
    exists c, (t ++ repeat 32 k). split; [reflexivity|now inversion HR]. }
  destruct R as (c & t & Er & Hc). assert (S3 : skipn 3 r = repeat 32 (k - (3 - length D))).
  { unfold r. rewrite skipn_app, rev_length. rewrite skipn_all2 by (rewrite rev_length; lia). cbn [app].
    generalize (3 - length D)%nat as m. intros m. clear. revert m. induction k as [|k IH]; intros [|m]; cbn [repeat skipn Nat.sub]; try reflexivity. apply IH. }
  assert (G : group_loop (S fuel) r = ([firstn 3 r], skipn 3 r)).
  { cbn [group_loop]. rewrite Er at 1. rewrite Hc. rewrite S3. destruct (k - (3 - length D))%nat as [|m]; destruct fuel; reflexivity. }
  exists [firstn 3 r], (skipn 3 r). split; [exact G|]. split; [reflexivity|]. unfold shown_groups. cbn [map rev app join].
  change (join [44] [rev (firstn 3 r)]) with (rev (firstn 3 r)). rewrite <- rev_app_distr, firstn_skipn. unfold r. now rewrite rev_app_distr, rev_involutive, blanks_rev.
Qed.

Lemma group_all n : forall s, commas n s -> forall k fuel, (length (dec n) <= fuel)%nat ->
  exists g l, group_loop fuel (rev (dec n) ++ repeat 32 k) = (g, l) /\ g <> [] /\ shown_groups g l = repeat 32 k ++ s /\ (length s = length (dec n) + (length g - 1))%nat.
Proof.
  intros s C. induction C as [n Hn|q r s Hq Hr C IH]; intros k fuel HF.
  - pose proof (dec_short n Hn). destruct (group_small (dec n) k fuel) as (g & l & E & Lg & Sg); [apply dec_is_digits|lia|lia|].
    exists g, l. split; [exact E|]. split; [intros ->; discriminate|]. split; [exact Sg|lia].
  - assert (E : dec (1000 * q + r) = dec q ++ three r).
    { rewrite dec_thousands by lia. f_equal; f_equal; zify; Z.to_euclidean_division_equations; lia. }
    rewrite E in *. rewrite rev_app_distr, <- app_assoc. rewrite app_length in HF. change (length (three r)) with 3%nat in HF. destruct fuel as [|fuel]; [lia|].
    destruct (IH k fuel) as (g & l & Eg & Ng & Sg & Lg); [lia|].
    exists (rev (three r) :: g), l. split; [|split; [discriminate|split]].
    + cbn [three rev app group_loop]. assert (H : is_digit (48 + r mod 10) = true).
      { unfold is_digit. apply andb_true_iff. split; apply N.leb_le; zify; Z.to_euclidean_division_equations; lia. }
      rewrite H. cbn [skipn firstn]. rewrite Eg. reflexivity.
    + unfold shown_groups in *. cbn [map rev]. rewrite join_snoc. 2:{ intros X. apply (f_equal (@length str)) in X. rewrite rev_length, map_length in X. destruct g; [contradiction|discriminate]. }
      rewrite app_assoc, Sg, rev_involutive, <- app_assoc. reflexivity.
    + rewrite !app_length. change (length (three r)) with 3%nat. change (length (lit ",")) with 1%nat. destruct g; [contradiction|]. cbn [length] in *. lia.
Qed.

Lemma strip_blanks k s a : match s with c :: _ => c <> 32 | [] => True end -> strip_padding (repeat 32 k ++ s) a = repeat 32 (k - a) ++ s.
Proof.
  intros Hs. revert a. induction k as [|k IH]; intros [|a]; cbn [repeat app Nat.sub strip_padding]; try reflexivity.
  - now destruct s.
  - destruct s as [|c s]; [reflexivity|]. cbn [strip_padding]. apply N.eqb_neq in Hs. now rewrite Hs.
  - apply IH.
Qed.
Lemma commas_head n s : commas n s -> match s with c :: _ => c <> 32 | [] => True end.
Proof.
  intros H. induction H as [n Hn|q r s Hq Hr H IH].
  - pose proof (dec_is_digits n) as D. destruct (dec n) as [|c t]; [exact I|]. inversion D as [|? ? Dc _]; subst. intros ->. discriminate.
  - destruct s as [|c s]; [cbn; discriminate|exact IH].
Qed.

Lemma commas_ex n : exists s, commas n s.
Proof.
  induction n as [n IH] using (well_founded_induction N.lt_wf_0). destruct (N.lt_ge_cases n 1000) as [H|H]; [eexists; now apply commas_small|].
  destruct (IH (n / 1000)) as [s Hs]; [apply N.div_lt; lia|]. exists (s ++ lit "," ++ three (n mod 1000)). rewrite (N.div_mod' n 1000) at 1. apply commas_more; [apply N.div_le_lower_bound; lia|apply N.mod_lt; lia|exact Hs].
Qed.

Theorem C102_sizes : forall n s, commas n s -> pretty_size n = rjust 13 s.
Proof.
  intros n s C. unfold pretty_size, group. unfold rjust at 1 2. rewrite rev_app_distr, blanks_rev.
  destruct (group_all n s C (13 - length (dec n)) (length (repeat 32 (13 - length (dec n)) ++ dec n))) as (g & l & E & Ng & Sg & Lg).
  { rewrite app_length. lia. }
  rewrite E. unfold shown_groups in Sg. rewrite Sg. pose proof (commas_head n s C) as Hh. destruct (Nat.eqb_spec (length g - 1) 0) as [Z|Z].
  - unfold rjust. rewrite Lg, Z, Nat.add_0_r. reflexivity.
  - rewrite strip_blanks by exact Hh. unfold rjust. rewrite Lg. do 2 f_equal. lia.
Qed.
Print Assumptions C102_sizes.

Theorem C102_every_size : forall n, exists s, commas n s /\ filter (fun c => negb (c =? 44)) s = dec n /\ (n < 10000000000 -> (length s <= 13)%nat).
Proof.
  intros n. destruct (commas_ex n) as [s C]. exists s. split; [exact C|]. assert (F : forall x, digits x -> filter (fun c => negb (c =? 44)) x = x).
  { intros x D. induction D as [|c x Dc _ IH]; [reflexivity|]. cbn [filter]. rewrite IH. destruct (N.eqb_spec c 44) as [->|]; [discriminate|reflexivity]. }
  assert (G : forall n s, commas n s -> filter (fun c => negb (c =? 44)) s = dec n).
  { clear -F. intros n s C. induction C as [n Hn|q r s Hq Hr C IH]; [apply F, dec_is_digits|]. rewrite !filter_app, IH. change (filter (fun c => negb (c =? 44)) (lit ",")) with (@nil N). cbn [app].
    rewrite F by (destruct (three_digits r); [assumption|lia]). rewrite (dec_thousands (1000 * q + r)) by lia. f_equal; f_equal; zify; Z.to_euclidean_division_equations; lia. }
  split; [now apply G|]. intros Hn. clear F G.
  assert (L : forall n s, commas n s -> forall k, n < 10 * 1000 ^ N.of_nat k -> (length s <= 4 * k + 1)%nat).
  { clear. intros n s C. induction C as [n Hn|q r s Hq Hr C IH]; intros [|k] Hk.
    - apply (show_length 10 ltac:(lia) 0). exact Hk.
    - pose proof (dec_short n Hn). lia.
    - change (1000 ^ N.of_nat 0) with 1 in Hk. lia.
    - replace (N.of_nat (S k)) with (N.succ (N.of_nat k)) in Hk by lia. rewrite N.pow_succ_r' in Hk. rewrite !app_length. change (length (lit ",")) with 1%nat. cbn [length three].
      specialize (IH k ltac:(lia)). lia. }
  apply (L n s C 3%nat). exact Hn.
Qed.
Print Assumptions C102_every_size.

(** ** The columns of the summary *)
Lemma length_rjust n s : (length s <= n)%nat -> length (rjust n s) = n.
Proof. intros H. unfold rjust. rewrite app_length, repeat_length. lia. Qed.
Lemma lname_ge procs p : In p procs -> (length p <= lname procs)%nat.
Proof.
  unfold lname. induction procs as [|q procs IH]; [intros []|]. cbn [map fold_right]. intros [->|H]; [lia|specialize (IH H); lia].
Qed.
Lemma lname_in procs : procs <> [] -> exists p, In p procs /\ length p = lname procs.
Proof.
  unfold lname. induction procs as [|q procs IH]; [contradiction|]. intros _. cbn [map fold_right]. destruct procs as [|p procs].
  - exists q. split; [now left|]. cbn. lia.
  - destruct IH as (x & Hx & Lx); [discriminate|]. destruct (Nat.max_spec (length q) (fold_right Nat.max 0%nat (map (@length N) (p :: procs)))) as [[_ ->]|[_ ->]].
    + exists x. split; [now right|exact Lx].
    + exists q. split; [now left|reflexivity].
Qed.
Lemma nth_at {A} (p : list A) (x : A) q n : length p = n -> nth_error (p ++ x :: q) n = Some x.
Proof. intros <-. rewrite nth_error_app2, Nat.sub_diag by lia. reflexivity. Qed.

(** Names and sizes end in the same columns, and the bars stand below each other. *)
Theorem C102_columns : forall procs c s, In (c_proc c) procs -> commas (c_size c) s -> c_size c < 10000000000 -> length (c_time c) = 5%nat ->
  let w := lname procs in
  firstn (w + 16) (line_text w c) = rjust (w + 2) (c_proc c) ++ [32] ++ rjust 13 s /\
  nth_error (line_text w c) (w + 23) = Some 124 /\ nth_error (title_text w) (w + 23) = Some 124.
Proof.
  intros procs c s Hp Hs Hc Ht w. pose proof (lname_ge _ _ Hp) as Lp. fold w in Lp.
  destruct (C102_every_size (c_size c)) as (s' & Hs' & _ & Ls).
  assert (Es : rjust 13 s' = rjust 13 s) by (rewrite <- (C102_sizes _ _ Hs'), <- (C102_sizes _ _ Hs); reflexivity).
  specialize (Ls Hc). unfold line_text, title_text. rewrite (C102_sizes _ _ Hs'), Es.
  assert (L13 : length (rjust 13 s) = 13%nat) by (rewrite <- Es; now apply length_rjust).
  assert (E2 : lit "  " ++ rjust w (c_proc c) = rjust (w + 2) (c_proc c)).
  { unfold rjust. replace (w + 2 - length (c_proc c))%nat with (S (S (w - length (c_proc c)))) by lia. reflexivity. }
  split; [|split].
  - rewrite (app_assoc (lit "  ")), E2. change (lit " ") with [32].
    replace (w + 16)%nat with (length (rjust (w + 2) (c_proc c) ++ [32%N] ++ rjust 13 s) + 0)%nat.
    2:{ rewrite !app_length, L13, length_rjust by lia. cbn [length]. lia. }
    match goal with |- firstn _ (?a ++ ?b ++ ?d ++ ?e) = _ => replace (a ++ b ++ d ++ e) with ((a ++ b ++ d) ++ e) by (rewrite <- !app_assoc; reflexivity) end.
    rewrite firstn_app_2. cbn [firstn]. apply app_nil_r.
  - match goal with |- nth_error (?a ++ ?b ++ ?d ++ ?e ++ ?f ++ ?g ++ lit " | " ++ ?h) _ = _ =>
      replace (a ++ b ++ d ++ e ++ f ++ g ++ lit " | " ++ h) with ((a ++ b ++ d ++ e ++ f ++ g ++ lit " ") ++ 124 :: lit " " ++ h) by (rewrite <- !app_assoc; reflexivity) end.
    apply nth_at. rewrite !app_length, L13, Ht, length_rjust by exact Lp. cbn. lia.
  - change (lit " size  time | ratio min   max   std" ++ [10]) with (lit " size  time " ++ 124 :: (lit " ratio min   max   std" ++ [10])).
    rewrite !app_assoc. apply nth_at. rewrite !app_length, length_rjust by (cbn; lia). cbn. lia.
Qed.
Print Assumptions C102_columns.

(** The first column is as wide as the longest name and no wider. *)
Theorem C102_width : forall procs, procs <> [] ->
  Forall (fun p => (length p <= lname procs)%nat) procs /\ Exists (fun p => length p = lname procs) procs.
Proof.
  intros procs H. split; [apply Forall_forall; intros p; apply lname_ge|]. apply Exists_exists. now apply lname_in.
Qed.
Print Assumptions C102_width.

(** A run of 100 seconds or 10,000,000,000 octets moves the bar of its line. *)
Theorem C102_columns_refuted :
  (exists c, c_size c < 10000000000 /\ nth_error (line_text (lname [c_proc c]) c) (lname [c_proc c] + 23) <> Some 124) /\
  (exists c, length (c_time c) = 5%nat /\ nth_error (line_text (lname [c_proc c]) c) (lname [c_proc c] + 23) <> Some 124).
Proof.
  split.
  - exists (mkCells (lit "http2") 12345 (lit "100.00") (lit "0.51") (lit "0.10") (lit "1.00") (lit "0.20")). split; [reflexivity|]. vm_compute. discriminate.
  - exists (mkCells (lit "http2") 10000000000 (lit " 1.00") (lit "0.51") (lit "0.10") (lit "1.00") (lit "0.20")). split; [reflexivity|]. vm_compute. discriminate.
Qed.
Print Assumptions C102_columns_refuted.

(** ** The files of tab separated values *)
Lemma digits_free n c : is_digit c = false -> ~ In c (dec n).
Proof. intros H I. pose proof (dec_is_digits n) as D. unfold digits in D. rewrite Forall_forall in D. rewrite (D c I) in H. discriminate. Qed.
Lemma cells_free c l : (forall x, In x l -> ~ In c x) -> c <> 9 -> ~ In c (join [9] l).
Proof. intros H Hc I. apply join_in in I as [[I|[]]|(p & Hp & I)]; [congruence|]. exact (H p Hp I). Qed.

Definition row_cells (r : row) : list str := dec (N.of_nat (r_num r)) :: r_name r :: map dec (r_sizes r).
Lemma row_cells_free r c : is_digit c = false -> ~ In c (r_name r) -> forall x, In x (row_cells r) -> ~ In c x.
Proof.
  intros Hd Hn x [<-|[<-|Hx]]; [now apply digits_free|exact Hn|]. apply in_map_iff in Hx as (m & <- & _). now apply digits_free.
Qed.
Lemma read_lines (ls : list (list str)) : Forall (fun l => l <> [] /\ forall x, In x l -> no_tab_or_newline x) ls ->
  read_tsv (concat (map (fun l => join [9] l ++ [10]) ls)) = ls.
Proof.
  intros H. unfold read_tsv. induction H as [|l ls [Hl Hf] _ IH]; [reflexivity|]. cbn [map concat]. rewrite <- app_assoc. cbn [app].
  rewrite split_on_cons_free.
  2:{ apply cells_free; [|discriminate]. intros x Hx. now apply Hf. }
  match goal with |- map _ (removelast (_ :: ?m)) = _ => pose proof (split_on_nonempty 10 (concat (map (fun l => join [9] l ++ [10]) ls))) as Hm end.
  cbn [removelast]. destruct (split_on 10 (concat (map (fun l => join [9] l ++ [10]) ls))) as [|a m]; [contradiction|]. cbn [map]. f_equal; [|exact IH].
  apply split_on_join; [exact Hl|]. apply Forall_forall. intros x Hx. now apply Hf.
Qed.

(** Read as lines of cells a file says the names of the processors and then, line by
    line, number, name, sizes. *)
Theorem C102_tsv : forall procs rows, Forall no_tab_or_newline procs -> Forall (fun r => no_tab_or_newline (r_name r)) rows ->
  read_tsv (tsv_text procs rows) =
  (lit "num" :: lit "name" :: procs) :: map (fun r => dec (N.of_nat (r_num r)) :: r_name r :: map dec (r_sizes r)) rows.
Proof.
  intros procs rows Hp Hr. unfold tsv_text, tsv_header_text.
  etransitivity; [|apply (read_lines ((lit "num" :: lit "name" :: procs) :: map row_cells rows))].
  - f_equal. cbn [map concat]. rewrite map_map. reflexivity.
  - constructor.
    + split; [discriminate|]. intros x [<-|[<-|Hx]].
      * split; cbv; intuition discriminate.
      * split; cbv; intuition discriminate.
      * rewrite Forall_forall in Hp. now apply Hp.
    + apply Forall_forall. intros l Hl. apply in_map_iff in Hl as (r & <- & Hin). rewrite Forall_forall in Hr. destruct (Hr r Hin) as [H9 H10].
      split; [discriminate|]. intros x Hx. split; eapply row_cells_free; eauto; reflexivity.
Qed.
Print Assumptions C102_tsv.

Lemma dec_inj a b : dec a = dec b -> a = b.
Proof. apply show_inj; lia. Qed.

(** Nothing is lost: two runs with the same file have the same processors and rows. *)
Theorem C102_tsv_injective : forall procs procs' rows rows',
  Forall no_tab_or_newline procs -> Forall (fun r => no_tab_or_newline (r_name r)) rows ->
  Forall no_tab_or_newline procs' -> Forall (fun r => no_tab_or_newline (r_name r)) rows' ->
  tsv_text procs rows = tsv_text procs' rows' -> procs = procs' /\ rows = rows'.
Proof.
  intros procs procs' rows rows' H1 H2 H3 H4 E. apply (f_equal read_tsv) in E. rewrite !C102_tsv in E by assumption.
  remember (lit "num") as a. remember (lit "name") as b. clear Heqa Heqb. injection E as Ep Er. split; [exact Ep|].
  clear -Er. revert rows' Er. induction rows as [|r rows IH]; intros [|r' rows'] E; try discriminate; [reflexivity|]. cbn [map] in E. injection E as E1 E2 E3 E4.
  f_equal; [|now apply IH]. destruct r as [n m s], r' as [n' m' s']. cbn in *. apply dec_inj in E1. apply Nnat.Nat2N.inj in E1. subst. f_equal.
  clear -E3. revert s' E3. induction s as [|x s IH]; intros [|x' s'] E; try discriminate; [reflexivity|]. cbn [map] in E. injection E as E1 E2. apply dec_inj in E1. f_equal; auto.
Qed.
Print Assumptions C102_tsv_injective.

(** Names come from the traffic, and are written as they are: a host with a tab
    makes a line with one cell too many. *)
Definition tab_exchange : exchange := ([(lit ":host", lit "x" ++ [9] ++ lit "y"); (lit ":path", lit "/")], [(lit ":status", lit "200")]).
Theorem C102_tsv_refuted : exists files rep rows, toy_run streamify_host toy_opts files = Ok rep /\ rep_tsv rep = Some rows /\
  exists line, In line (read_tsv (tsv_text (map shown (names_of toy_opts)) (fst rows))) /\ length line <> (2 + length (names_of toy_opts))%nat.
Proof.
  exists [[toy_exchange "a" "/"; tab_exchange]]. do 2 eexists. split; [vm_compute; reflexivity|]. split; [vm_compute; reflexivity|].
  exists [lit "2"; lit "x"; lit "y"; lit "14"; lit "5"]. split; [vm_compute; auto|]. vm_compute. discriminate.
Qed.
Print Assumptions C102_tsv_refuted.

(** ** Cases *)
Example C102_example_sizes :
  commas 1234567 (lit "1,234,567") /\ pretty_size 1234567 = lit "    1,234,567" /\ pretty_size 0 = lit "            0" /\
  pretty_size 999 = lit "          999" /\ pretty_size 1000 = lit "        1,000" /\ pretty_size 12345678901234 = lit "12,345,678,901,234".
Proof.
  split; [|vm_compute; repeat split; reflexivity].
  exact (commas_more 1234 567 (lit "1,234") ltac:(lia) ltac:(lia) (commas_more 1 234 (lit "1") ltac:(lia) ltac:(lia) (commas_small 1 ltac:(lia)))).
Qed.

Example C102_example_summary :
  summary_text [lit "http1"; lit "delta2"]
    [mkCells (lit "http1") 43210 (lit " 0.10") (lit "1.00") (lit "1.00") (lit "1.00") (lit "0.00");
     mkCells (lit "delta2") 9876 (lit "12.50") (lit "0.23") (lit "0.08") (lit "0.91") (lit "0.11")] =
  lit "                  size  time | ratio min   max   std" ++ [10] ++
  lit "   http1        43,210  0.10 | 1.00  1.00  1.00  0.00" ++ [10] ++
  lit "  delta2         9,876 12.50 | 0.23  0.08  0.91  0.11" ++ [10; 10].
Proof. vm_compute. reflexivity. Qed.

Example C102_example_tsv :
  tsv_text [lit "http1"; lit "delta2"] [mkRow 1 (lit "a.example") [123; 45]; mkRow 2 (lit "b.example") [99; 7]] =
  join [9] [lit "num"; lit "name"; lit "http1"; lit "delta2"] ++ [10] ++ join [9] [lit "1"; lit "a.example"; lit "123"; lit "45"] ++ [10] ++
  join [9] [lit "2"; lit "b.example"; lit "99"; lit "7"] ++ [10] /\
  no_tab_or_newline (lit "a.example") /\ header_text (lit "a.example") 12 (lit "req") = lit "* a.example: 12 req messages" ++ [10].
Proof. split; [vm_compute; reflexivity|]. split; [split; cbv; intuition discriminate|vm_compute; reflexivity]. Qed.
