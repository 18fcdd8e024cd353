(** * The texts of dates: specification and proofs. *)
From Coq Require Import String List NArith ZArith Bool Lia.
From Verif Require Import PyBase PyNum Params_Model SDate_Model SDate_Cal PyStr.
Import ListNotations.
Open Scope Z_scope.

(** ** Specification *)

(** Two and four decimal digits. *)
Definition two (n : Z) : str := [Z.to_N (48 + n / 10); Z.to_N (48 + n mod 10)].
Definition four (n : Z) : str := two (n / 100) ++ two (n mod 100).
Definition clock (h mi s : Z) : str := two h ++ lit ":" ++ two mi ++ lit ":" ++ two s.

Definition day_long : list str := map lit ["Monday"; "Tuesday"; "Wednesday"; "Thursday"; "Friday"; "Saturday"; "Sunday"]%string.
Definition name_of (names : list str) (i : Z) : str := nth (Z.to_nat i) names [].

(** The three forms of RFC 2616 section 3.3.1; [wd] numbers the day of the week from 0 (Monday). *)
Definition fixdate (wd y m d h mi s : Z) : str :=
  name_of day_short wd ++ lit ", " ++ two d ++ lit " " ++ name_of month_short (m - 1) ++ lit " " ++ four y ++ lit " " ++ clock h mi s ++ lit " GMT".
Definition rfc850_date (wd y m d h mi s : Z) : str :=
  name_of day_long wd ++ lit ", " ++ two d ++ lit "-" ++ name_of month_short (m - 1) ++ lit "-" ++ two (y mod 100) ++ lit " " ++ clock h mi s ++ lit " GMT".
Definition asctime_date (wd y m d h mi s : Z) : str :=
  name_of day_short wd ++ lit " " ++ name_of month_short (m - 1) ++ lit " " ++ (if d <? 10 then [32%N; Z.to_N (48 + d)] else two d) ++ lit " " ++ clock h mi s ++ lit " " ++ four y.

(** ** Digits *)
Lemma show_length b : (2 <= b)%N -> forall k n, (n < b ^ N.of_nat (S k))%N -> (length (show b n) <= S k)%nat.
Proof.
  intros Hb. induction k as [|k IH]; intros n Hn; rewrite show_step, app_length by exact Hb; cbn [length].
  - change (N.of_nat 1) with 1%N in Hn. rewrite N.pow_1_r in Hn. rewrite N.div_small by exact Hn. cbn. lia.
  - destruct (N.eqb_spec (n / b) 0); [cbn; lia|]. assert (length (show b (n / b)) <= S k)%nat; [|lia]. apply IH.
    apply N.div_lt_upper_bound; [lia|]. rewrite <- N.pow_succ_r'. replace (N.succ (N.of_nat (S k))) with (N.of_nat (S (S k))) by lia. exact Hn.
Qed.
Lemma value_in_bound b : (2 <= b)%N -> forall s acc v, value_in b acc s = Some v -> (v < (acc + 1) * b ^ N.of_nat (length s))%N.
Proof.
  intros Hb. induction s as [|c s IH]; intros acc v H; cbn [value_in length] in H.
  - injection H as <-. change (N.of_nat (length (@nil N))) with 0%N. rewrite N.pow_0_r. lia.
  - destruct (digit_value b c) as [x|] eqn:E; [|discriminate]. assert (x < b)%N.
    { unfold digit_value in E. destruct (_ <? b)%N eqn:L in E; [|discriminate]. apply N.ltb_lt in L. injection E as <-. exact L. }
    apply IH in H. cbn [length]. replace (N.of_nat (S (length s))) with (N.succ (N.of_nat (length s))) by lia. rewrite N.pow_succ_r'.
    eapply N.lt_le_trans; [exact H|]. rewrite N.mul_assoc. apply N.mul_le_mono_r. lia.
Qed.

Definition digits (s : str) : Prop := Forall (fun c => is_digit c = true) s.
Lemma digits_no s c : digits s -> is_digit c = false -> ~ In c s.
Proof. intros H Hc Hin. unfold digits in H. rewrite Forall_forall in H. specialize (H c Hin). congruence. Qed.

Lemma value_in_cons b acc x s : value_in b acc (x :: s) = match digit_value b x with Some v => value_in b (b * acc + v)%N s | None => None end.
Proof. reflexivity. Qed.
Lemma digit_value_10 c : is_digit c = true -> digit_value 10 c = Some (c - 48)%N.
Proof.
  unfold is_digit, digit_value. intros H. rewrite H. apply andb_true_iff in H as [H1 H2]. apply N.leb_le in H1, H2.
  replace (c - 48 <? 10)%N with true; [reflexivity|]. symmetry. apply N.ltb_lt. lia.
Qed.
Lemma digits_value_in s : digits s -> forall acc, digits_value acc s = value_in 10 acc s.
Proof.
  induction 1 as [|c s Hc _ IH]; intros acc; [reflexivity|]. cbn [digits_value]. rewrite value_in_cons, digit_value_10 by exact Hc.
  unfold is_digit in Hc. rewrite Hc. apply IH.
Qed.

Lemma value_in_same s t acc acc' v : length s = length t -> digits s -> digits t -> value_in 10 acc s = Some v -> value_in 10 acc' t = Some v -> s = t /\ acc = acc'.
Proof.
  revert t acc acc'. induction s as [|c s IH]; intros [|c' t] acc acc' L Ds Dt; try discriminate; intros E1 E2.
  - cbn [value_in] in *. split; [reflexivity|congruence].
  - inversion Ds; inversion Dt; subst. rewrite value_in_cons, digit_value_10 in E1, E2 by assumption.
    destruct (IH t _ _ ltac:(cbn in L; lia) H2 H6 E1 E2) as [-> E].
    unfold is_digit in *. rewrite andb_true_iff, !N.leb_le in *. assert (c = c' /\ acc = acc') as [-> ->] by lia. auto.
Qed.

Lemma digit_of k : 0 <= k < 10 -> is_digit (Z.to_N (48 + k)) = true.
Proof. intros H. unfold is_digit. rewrite andb_true_iff, !N.leb_le. lia. Qed.
Lemma tens n : 0 <= n < 100 -> 0 <= n / 10 < 10 /\ 0 <= n mod 10 < 10.
Proof. intros H. split; [split; [apply Z.div_pos; lia|apply Z.div_lt_upper_bound; lia]|apply Z.mod_pos_bound; lia]. Qed.
Lemma two_digits n : 0 <= n < 100 -> digits (two n).
Proof. intros H. destruct (tens n H). unfold digits, two. constructor; [|constructor; [|constructor]]; now apply digit_of. Qed.
Lemma two_value n acc : 0 <= n < 100 -> value_in 10 acc (two n) = Some (100 * acc + Z.to_N n)%N.
Proof.
  intros H. destruct (tens n H) as [H1 H2]. unfold two. rewrite value_in_cons, digit_value_10 by now apply digit_of. rewrite value_in_cons, digit_value_10 by now apply digit_of. cbn [value_in]. f_equal.
  pose proof (Z.div_mod n 10 ltac:(lia)) as E. revert H1 H2 E. generalize (n / 10), (n mod 10). intros a b H1 H2 E. clear -H1 H2 E. lia.
Qed.
Lemma hundreds n : 0 <= n <= 9999 -> 0 <= n / 100 < 100 /\ 0 <= n mod 100 < 100.
Proof. intros H. split; [split; [apply Z.div_pos; lia|apply Z.div_lt_upper_bound; lia]|apply Z.mod_pos_bound; lia]. Qed.
Lemma four_digits n : 0 <= n <= 9999 -> digits (four n).
Proof. intros H. destruct (hundreds n H). apply Forall_app. split; now apply two_digits. Qed.
Lemma four_value n : 0 <= n <= 9999 -> value_in 10 0 (four n) = Some (Z.to_N n).
Proof.
  intros H. destruct (hundreds n H). unfold four. rewrite value_in_app, two_value by assumption. rewrite two_value by assumption. f_equal. pose proof (Z.div_mod n 100 ltac:(lia)) as E. revert H0 H1 E. generalize (n / 100), (n mod 100). intros. lia.
Qed.

Lemma dec_is_digits n : digits (dec n).
Proof. eapply Forall_impl; [|apply dec_digits]. intros c [H1 H2]. unfold is_digit. apply andb_true_iff. split; now apply N.leb_le. Qed.
Lemma zeros_value k s : value_in 10 0 (repeat 48%N k ++ s) = value_in 10 0 s.
Proof. induction k as [|k IH]; [reflexivity|]. cbn [repeat app]. rewrite value_in_cons. exact IH. Qed.

Lemma zero_pad_spec k z : 0 <= z < 10 ^ Z.of_nat (S k) -> length (zero_pad (S k) z) = S k /\ digits (zero_pad (S k) z) /\ value_in 10 0 (zero_pad (S k) z) = Some (Z.to_N z).
Proof.
  intros H. unfold zero_pad. replace (z <? 0) with false by (symmetry; apply Z.ltb_ge; lia). replace (Z.abs_N z) with (Z.to_N z) by lia.
  assert (L : (length (dec (Z.to_N z)) <= S k)%nat).
  { apply show_length; [lia|]. assert (Z.of_N (10 ^ N.of_nat (S k)) = 10 ^ Z.of_nat (S k)) by (rewrite N2Z.inj_pow, nat_N_Z; reflexivity). lia. }
  split; [rewrite app_length, repeat_length; lia|]. split.
  - apply Forall_app. split; [|apply dec_is_digits]. apply Forall_forall. intros c Hc. apply repeat_spec in Hc. subst c. reflexivity.
  - rewrite zeros_value. apply show_value; lia.
Qed.
Lemma zero_pad_2 z : 0 <= z < 100 -> zero_pad 2 z = two z.
Proof.
  intros H. destruct (zero_pad_spec 1 z) as (L & D & V); [cbn; lia|]. eapply (value_in_same _ _ 0%N 0%N); [exact L|exact D|now apply two_digits|exact V|]. now rewrite two_value.
Qed.
Lemma zero_pad_4 z : 0 <= z <= 9999 -> zero_pad 4 z = four z.
Proof.
  intros H. destruct (zero_pad_spec 3 z) as (L & D & V); [cbn; lia|]. eapply (value_in_same _ _ 0%N 0%N); [exact L|exact D|now apply four_digits|exact V|]. now rewrite four_value.
Qed.
(** Years that do not fit give no four digits. *)
Lemma zero_pad_wrong z : ~ 0 <= z <= 9999 -> ~ (length (zero_pad 4 z) = 4%nat /\ digits (zero_pad 4 z)).
Proof.
  intros H [L D]. unfold zero_pad in *. destruct (Z.ltb_spec z 0) as [Hz|Hz].
  - inversion D as [|? ? D1 _]. discriminate.
  - rewrite app_length, repeat_length in L. pose proof (show_value 10 (Z.abs_N z) ltac:(lia) ltac:(lia)) as V. apply value_in_bound in V; [|lia]. fold (dec (Z.abs_N z)) in V.
    assert (length (dec (Z.abs_N z)) <= 4)%nat by lia.
    assert (10 ^ N.of_nat (length (dec (Z.abs_N z))) <= 10 ^ N.of_nat 4)%N by (apply N.pow_le_mono_r; lia). change (10 ^ N.of_nat 4)%N with 10000%N in H1. lia.
Qed.

(** ** int() *)
Lemma digit_not_space c : is_digit c = true -> is_space c = false.
Proof. unfold is_digit, is_space. rewrite andb_true_iff, !N.leb_le. intros [A B]. apply orb_false_iff. split; [apply N.eqb_neq; lia|]. apply andb_false_iff. right. apply N.leb_gt. lia. Qed.
Lemma digits_no_ends s : digits s -> no_ends is_space s.
Proof.
  intros H. split.
  - destruct s as [|c s]; [exact I|]. inversion H; subst. now apply digit_not_space.
  - apply Forall_rev in H. destruct (rev s) as [|c r]; [exact I|]. inversion H; subst. now apply digit_not_space.
Qed.
Lemma py_int_digits s n : s <> [] -> digits s -> value_in 10 0 s = Some n -> py_int s = Ok (Z.of_N n).
Proof.
  intros Hs D V. unfold py_int. rewrite strip_id by now apply digits_no_ends. destruct s as [|c s]; [congruence|]. inversion D as [|? ? D1 _]; subst.
  assert (c <> 45 /\ c <> 43)%N as [A B] by (split; intros ->; discriminate). apply N.eqb_neq in A, B. rewrite A, B. rewrite digits_value_in by exact D. now rewrite V.
Qed.
Lemma py_int_two n : 0 <= n < 100 -> py_int (two n) = Ok n.
Proof. intros H. erewrite py_int_digits; [|discriminate|now apply two_digits|now rewrite two_value]. f_equal. lia. Qed.
Lemma py_int_four n : 0 <= n <= 9999 -> py_int (four n) = Ok n.
Proof. intros H. erewrite py_int_digits; [|discriminate|now apply four_digits|now apply four_value]. f_equal. lia. Qed.
Lemma py_int_one n : 0 <= n < 10 -> py_int [Z.to_N (48 + n)] = Ok n.
Proof.
  intros H. erewrite py_int_digits; [|discriminate| |]; [instantiate (1 := Z.to_N n); f_equal; lia| |].
  - constructor; [now apply digit_of|constructor].
  - rewrite value_in_cons, digit_value_10 by now apply digit_of. cbn [value_in]. f_equal. lia.
Qed.

(** ** Words *)
Definition solid (w : str) : Prop := w <> [] /\ Forall (fun c => is_space c = false) w.
Lemma words_from_solid w r : Forall (fun c => is_space c = false) w -> forall cur, words_from cur (w ++ r) = words_from (rev w ++ cur) r.
Proof. induction 1 as [|c w Hc _ IH]; intros cur; [reflexivity|]. cbn [app words_from rev]. rewrite Hc, IH, <- app_assoc. reflexivity. Qed.
Lemma words_cons w r : solid w -> words (w ++ 32%N :: r) = w :: words r.
Proof.
  intros [Hn H]. unfold words. rewrite words_from_solid by exact H. rewrite app_nil_r. cbn [words_from]. change (is_space 32) with true. cbv iota.
  destruct (rev w) as [|c x] eqn:E; [apply (f_equal (@rev N)) in E; rewrite rev_involutive in E; contradiction|]. rewrite <- E, rev_involutive. reflexivity.
Qed.
Lemma words_one w : solid w -> words w = [w].
Proof.
  intros [Hn H]. unfold words. rewrite <- (app_nil_r w) at 1. rewrite words_from_solid by exact H. rewrite app_nil_r. cbn [words_from].
  destruct (rev w) as [|c x] eqn:E; [apply (f_equal (@rev N)) in E; rewrite rev_involutive in E; contradiction|]. now rewrite <- E, rev_involutive.
Qed.
Lemma words_blank r : words (32%N :: r) = words r.
Proof. reflexivity. Qed.

Lemma solid_digits s : s <> [] -> digits s -> solid s.
Proof. intros Hs H. split; [exact Hs|]. eapply Forall_impl; [|exact H]. intros c. apply digit_not_space. Qed.
Lemma solid_app a b : solid a -> Forall (fun c => is_space c = false) b -> solid (a ++ b).
Proof. intros [H1 H2] H. split; [destruct a; [contradiction|discriminate]|]. apply Forall_app. auto. Qed.

Section Fields.
  Variables h mi s : Z.
  Hypothesis Hh : 0 <= h < 100.
  Hypothesis Hmi : 0 <= mi < 100.
  Hypothesis Hs : 0 <= s < 100.

  Lemma clock_solid : solid (clock h mi s).
  Proof.
    unfold clock. apply solid_app; [apply solid_digits; [discriminate|now apply two_digits]|]. repeat (apply Forall_app; split); try (repeat constructor; reflexivity);
      (eapply Forall_impl; [intros c; apply digit_not_space|]); now apply two_digits.
  Qed.
  Lemma clock_split : split_on 58 (clock h mi s) = [two h; two mi; two s].
  Proof.
    unfold clock. change (lit ":") with [58%N]. cbn [app]. rewrite split_on_cons_free by (apply digits_no; [now apply two_digits|reflexivity]).
    rewrite split_on_cons_free by (apply digits_no; [now apply two_digits|reflexivity]). rewrite split_on_free by (apply digits_no; [now apply two_digits|reflexivity]). reflexivity.
  Qed.
  Lemma last_two_digits x : 0 <= x < 100 -> exists c r, rev (two x) = c :: r /\ is_digit c = true.
  Proof. intros H. destruct (tens x H). exists (Z.to_N (48 + x mod 10)), [Z.to_N (48 + x / 10)]. split; [reflexivity|now apply digit_of]. Qed.
  Lemma clock_comma : drop_comma (clock h mi s) = clock h mi s.
  Proof.
    unfold drop_comma, ends_comma, clock. rewrite !app_assoc, rev_app_distr. destruct (last_two_digits s Hs) as (c & r & -> & D). cbn [app].
    destruct c as [|p]; [reflexivity|]. repeat (destruct p as [p|p|]; try reflexivity). all: try discriminate D.
  Qed.
  Lemma clock_fits r q : fits (re_clock ++ q) (clock h mi s ++ r) = fits q r.
  Proof.
    destruct (tens h Hh), (tens mi Hmi), (tens s Hs). unfold clock, two. change (lit ":") with [58%N]. cbn [app re_clock fits]. rewrite !digit_of by assumption. reflexivity.
  Qed.

  Lemma digits_comma x : digits x -> drop_comma x = x.
  Proof.
    intros D. unfold drop_comma, ends_comma. apply Forall_rev in D. destruct (rev x) as [|c r]; [reflexivity|]. inversion D as [|? ? D1 _]; subst.
    destruct c as [|p]; [reflexivity|]. repeat (destruct p as [p|p|]; try reflexivity). all: try discriminate D1.
  Qed.

  (** The year as read. *)
  Definition full_year (y : Z) : Z := if y <? 100 then if y >? 68 then y + 1900 else y + 2000 else y.

  Lemma from_fields_ok dd mm yy tz y m d : mem_str (lower mm) months = true -> index_of (lower mm) months 1 = Some m -> m <= 12 ->
    digits dd -> py_int dd = Ok d -> yy <> [] -> digits yy -> py_int yy = Ok y ->
    from_fields dd mm yy (clock h mi s) tz = Some (full_year y, m, d, h, mi, s).
  Proof.
    intros Hm Hi Hm12 Dd Pd Ny Dy Py. unfold from_fields. rewrite Hm, Hi. replace (m >? 12) with false by (symmetry; rewrite Z.gtb_ltb; apply Z.ltb_ge; exact Hm12).
    rewrite split_once_none by (apply digits_no; [exact Dy|reflexivity]).
    destruct yy as [|c yy]; [contradiction|]. cbv zeta iota beta. rewrite (digits_comma dd), (digits_comma (c :: yy)) by assumption. rewrite clock_comma, clock_split.
    pose proof (Forall_inv Dy) as Dc. cbv beta in Dc. rewrite Dc.
    rewrite Py, Pd, !py_int_two by assumption. reflexivity.
  Qed.

  (** The order of ctime: month, day, time, year. *)
  Lemma from_fields_ctime dd mm yy y m d : mem_str (lower dd) months = false -> index_of (lower mm) months 1 = Some m -> m <= 12 ->
    digits dd -> py_int dd = Ok d -> yy <> [] -> digits yy -> py_int yy = Ok y ->
    from_fields mm dd (clock h mi s) yy [] = Some (full_year y, m, d, h, mi, s).
  Proof.
    intros Hm Hi Hm12 Dd Pd Ny Dy Py. unfold from_fields. rewrite Hm, Hi. replace (m >? 12) with false by (symmetry; rewrite Z.gtb_ltb; apply Z.ltb_ge; exact Hm12).
    assert (C : exists c r x, split_once 58 (clock h mi s) = (c :: r, Some x)).
    { unfold clock. change (lit ":") with [58%N]. cbn [app]. rewrite split_once_app by (apply digits_no; [now apply two_digits|reflexivity]). unfold two. eauto. }
    destruct C as (c & r & x & ->). cbv zeta. assert (L : lower dd = dd).
    { clear -Dd. unfold lower. induction Dd as [|c s Hc _ IH]; [reflexivity|]. cbn [map]. rewrite IH. f_equal. unfold lower_char. unfold is_digit in Hc.
      rewrite andb_true_iff, !N.leb_le in Hc. replace (65 <=? c)%N with false; [reflexivity|]. symmetry. apply N.leb_gt. lia. }
    rewrite L, (digits_comma dd), (digits_comma yy) by assumption. rewrite clock_comma, clock_split.
    destruct yy as [|c0 yy]; [contradiction|]. pose proof (Forall_inv Dy) as Dc. cbv beta in Dc. rewrite Dc.
    rewrite Py, Pd, !py_int_two by assumption. reflexivity.
  Qed.
End Fields.
