(** * Simple's dates: the three forms are understood, what is shown, and which
      values come back as they were. *)
From Coq Require Import String List NArith ZArith Bool Lia.
From Verif Require Import PyBase PyNum Params_Model SDate_Model SDate_Cal SDate_Text PyStr.
Import ListNotations.
Open Scope Z_scope.

(** ** Specification *)

(** The moment, in seconds since the beginning of 1970, and the day of the week:
    1 January 1970 was a Thursday. *)
Definition moment (y m d h mi s z : Z) : Prop :=
  exists n, day_no (y, m, d) n /\ 0 <= h < 24 /\ 0 <= mi < 60 /\ 0 <= s < 60 /\ z = ((n * 24 + h) * 60 + mi) * 60 + s.
Definition weekday (y m d wd : Z) : Prop := exists n, day_no (y, m, d) n /\ wd = (n + 3) mod 7.

(** ** Names *)
Lemma seven wd : 0 <= wd < 7 -> wd = 0 \/ wd = 1 \/ wd = 2 \/ wd = 3 \/ wd = 4 \/ wd = 5 \/ wd = 6.
Proof. lia. Qed.

Lemma short_day wd : 0 <= wd < 7 -> exists a b c, name_of day_short wd = [a; b; c] /\ is_word a = true /\ is_word b = true /\ is_word c = true /\ mem_str (lower [a; b; c]) daynames = true /\ c <> 44%N.
Proof.
  intros H. apply seven in H as [-> | [-> | [-> | [-> | [-> | [-> | ->]]]]]]; do 3 eexists; (split; [reflexivity|]); repeat (split; [reflexivity|]); discriminate.
Qed.
Definition wordy (s : str) : Prop := Forall (fun c => is_word c = true) s.
Lemma long_day wd : 0 <= wd < 7 -> exists n, In n [6; 7; 8; 9]%nat /\ length (name_of day_long wd) = n /\ wordy (name_of day_long wd).
Proof.
  intros H. unfold wordy. apply seven in H as [-> | [-> | [-> | [-> | [-> | [-> | ->]]]]]]; eexists; (split; [|split; [reflexivity|repeat constructor]]); cbn; tauto.
Qed.
Lemma short_month m : 1 <= m <= 12 -> exists a b c, name_of month_short (m - 1) = [a; b; c] /\ is_word a = true /\ is_word b = true /\ is_word c = true /\
  mem_str (lower [a; b; c]) months = true /\ index_of (lower [a; b; c]) months 1 = Some m.
Proof.
  intros H. apply twelve in H as [-> | [-> | [-> | [-> | [-> | [-> | [-> | [-> | [-> | [-> | [-> | ->]]]]]]]]]]]; do 3 eexists; (split; [reflexivity|]); repeat (split; [reflexivity|]); reflexivity.
Qed.

Lemma word_not_space c : is_word c = true -> is_space c = false.
Proof.
  unfold is_word, is_digit, is_space. rewrite !orb_true_iff, !andb_true_iff, !N.leb_le, N.eqb_eq. intros H. apply orb_false_iff.
  split; [apply N.eqb_neq; lia|]. apply andb_false_iff. right. apply N.leb_gt. lia.
Qed.
Lemma word_not c x : is_word c = true -> is_word x = false -> x <> c.
Proof. congruence. Qed.

Lemma solid_words s : s <> [] -> wordy s -> Forall (fun c => is_space c = false) s.
Proof. intros _ H. eapply Forall_impl; [|exact H]. exact word_not_space. Qed.

(** ** The expression *)
Lemma re_date_of v : fits re_fixdate v || existsb (fun n => fits (re_850 n) v) [6; 7; 8; 9]%nat || fits re_asctime v = true -> re_date v = true.
Proof. intros H. unfold re_date. cbn [existsb] in *. apply orb_true_iff. left. exact H. Qed.

Lemma fits_app p q s t : length p = length s -> fits (p ++ q) (s ++ t) = fits p s && fits q t.
Proof.
  revert s. induction p as [|c p IH]; intros [|x s] L; try discriminate; [reflexivity|]. cbn [app fits]. rewrite IH by (cbn in L; lia). apply andb_assoc.
Qed.
Lemma fits_wordy s : wordy s -> fits (repeat is_word (length s)) s = true.
Proof. induction 1 as [|c s H _ IH]; [reflexivity|]. cbn [length repeat fits]. now rewrite H, IH. Qed.
Lemma fits_length p : forall s, fits p s = true -> length s = length p.
Proof. induction p as [|c p IH]; intros [|x s] H; try discriminate; [reflexivity|]. cbn [fits] in H. apply andb_true_iff in H as [_ H]. cbn. f_equal. now apply IH. Qed.

Lemma ends_comma_app x : ends_comma (x ++ [44%N]) = true.
Proof. unfold ends_comma. rewrite rev_app_distr. reflexivity. Qed.
Lemma ends_comma_not x c : c <> 44%N -> ends_comma (x ++ [c]) = false.
Proof.
  intros H. unfold ends_comma. rewrite rev_app_distr. cbn [rev app]. destruct c as [|p]; [reflexivity|]. repeat (destruct p as [p|p|]; try reflexivity). all: contradiction.
Qed.

Section Texts.
  Variables wd y m d h mi s : Z.
  Hypothesis Hwd : 0 <= wd < 7.
  Hypothesis Hm : 1 <= m <= 12.
  Hypothesis Hd : 0 <= d < 100.
  Hypothesis Hh : 0 <= h < 100.
  Hypothesis Hmi : 0 <= mi < 100.
  Hypothesis Hs : 0 <= s < 100.

  Lemma two_solid x : 0 <= x < 100 -> solid (two x).
  Proof. intros H. apply solid_digits; [discriminate|now apply two_digits]. Qed.

  Lemma fixdate_fits : 0 <= y <= 9999 -> fits re_fixdate (fixdate wd y m d h mi s) = true.
  Proof.
    intros Hy. destruct (short_day wd Hwd) as (a & b & c & E0 & Wa & Wb & Wc & _). destruct (short_month m Hm) as (a' & b' & c' & E & Wa' & Wb' & Wc' & _).
    unfold fixdate. rewrite E0, E. destruct (hundreds y Hy) as [Y1 Y2]. destruct (tens _ Y1), (tens _ Y2), (tens d Hd).
    unfold re_fixdate, four, two at 1 2 3. change (lit ", ") with [44; 32]%N. change (lit " ") with [32%N].
    cbn [app fits repeat]. rewrite Wa, Wb, Wc, Wa', Wb', Wc', !digit_of by assumption. change (only 44%N 44%N) with true. change (only 32%N 32%N) with true. cbn [andb].
    rewrite (clock_fits h mi s Hh Hmi Hs). reflexivity.
  Qed.
  Lemma fixdate_parsedate : 0 <= y <= 9999 -> parsedate (fixdate wd y m d h mi s) = Some (full_year y, m, d, h, mi, s).
  Proof.
    intros Hy. unfold fixdate. destruct (short_day wd Hwd) as (a & b & c & -> & Wa & Wb & Wc & _). destruct (short_month m Hm) as (a' & b' & c' & -> & Wa' & Wb' & Wc' & Mm & Mi).
    match goal with |- parsedate ?t = _ => change t with ([a; b; c; 44%N] ++ 32%N :: two d ++ 32%N :: [a'; b'; c'] ++ 32%N :: four y ++ 32%N :: clock h mi s ++ 32%N :: lit "GMT") end.
    unfold parsedate. rewrite (words_cons [a; b; c; 44%N]).
    2:{ split; [discriminate|]. repeat constructor; try (now apply word_not_space); reflexivity. }
    rewrite words_cons by now apply two_solid. rewrite (words_cons [a'; b'; c']).
    2:{ split; [discriminate|]. repeat constructor; now apply word_not_space. }
    rewrite words_cons by (apply solid_digits; [discriminate|now apply four_digits]). rewrite words_cons by now apply clock_solid. rewrite (words_one (lit "GMT")).
    2:{ split; [discriminate|]. repeat constructor. }
    unfold fields. rewrite (ends_comma_app [a; b; c] : ends_comma (a :: b :: c :: [44%N]) = true). cbn [orb].
    apply from_fields_ok; auto; try lia; [now apply two_digits|now apply py_int_two|discriminate|now apply four_digits|now apply py_int_four].
  Qed.

  Lemma rfc850_fits : fits (re_850 (length (name_of day_long wd))) (rfc850_date wd y m d h mi s) = true.
  Proof.
    destruct (long_day wd Hwd) as (n & _ & _ & W). destruct (short_month m Hm) as (a' & b' & c' & E & Wa' & Wb' & Wc' & _).
    unfold rfc850_date, re_850. rewrite E. rewrite fits_app by apply repeat_length. rewrite fits_wordy by exact W. destruct (tens d Hd), (tens (y mod 100) (Z.mod_pos_bound y 100 eq_refl)).
    unfold two at 1 2. change (lit ", ") with [44; 32]%N. change (lit " ") with [32%N]. change (lit "-") with [45%N].
    cbn [app fits repeat]. rewrite Wa', Wb', Wc', !digit_of by assumption. change (only 44%N 44%N) with true. change (only 32%N 32%N) with true. change (only 45%N 45%N) with true. cbn [andb].
    rewrite (clock_fits h mi s Hh Hmi Hs). reflexivity.
  Qed.
  Lemma rfc850_parsedate : parsedate (rfc850_date wd y m d h mi s) = Some (full_year (y mod 100), m, d, h, mi, s).
  Proof.
    unfold rfc850_date. destruct (long_day wd Hwd) as (n & Hn & L & W). destruct (short_month m Hm) as (a' & b' & c' & -> & Wa' & Wb' & Wc' & Mm & Mi).
    assert (Hy : 0 <= y mod 100 < 100) by (apply Z.mod_pos_bound; lia).
    assert (S0 : name_of day_long wd <> []). { intros E. rewrite E in L. cbn in L. subst n. cbn in Hn. lia. }
    change (lit ", ") with ([44%N] ++ [32%N]). change (lit " ") with [32%N]. change (lit "-") with [45%N]. change (lit " GMT") with ([32%N] ++ lit "GMT").
    replace (name_of day_long wd ++ ([44%N] ++ [32%N]) ++ two d ++ [45%N] ++ [a'; b'; c'] ++ [45%N] ++ two (y mod 100) ++ [32%N] ++ clock h mi s ++ [32%N] ++ lit "GMT")
      with ((name_of day_long wd ++ [44%N]) ++ 32%N :: (two d ++ 45%N :: [a'; b'; c'] ++ 45%N :: two (y mod 100)) ++ 32%N :: clock h mi s ++ 32%N :: lit "GMT").
    2:{ rewrite <- !app_assoc. reflexivity. }
    unfold parsedate. rewrite words_cons.
    2:{ split; [destruct (name_of day_long wd); discriminate|]. apply Forall_app. split; [now apply solid_words|repeat constructor]. }
    rewrite words_cons.
    2:{ apply solid_app; [now apply two_solid|]. cbn [app]. constructor; [reflexivity|]. repeat (constructor; [now apply word_not_space|]). constructor; [reflexivity|]. now apply two_solid. }
    rewrite words_cons by now apply clock_solid. rewrite (words_one (lit "GMT")).
    2:{ split; [discriminate|]. repeat constructor. }
    unfold fields. rewrite ends_comma_app. cbn [orb].
    rewrite split_on_cons_free by (apply digits_no; [now apply two_digits|reflexivity]). rewrite split_on_cons_free.
    2:{ intros [E|[E|[E|[]]]]; subst; discriminate. }
    rewrite split_on_free by (apply digits_no; [now apply two_digits|reflexivity]).
    apply from_fields_ok; auto; try lia; [now apply two_digits|now apply py_int_two|discriminate|now apply two_digits|now apply py_int_two].
  Qed.

  Definition day_text : str := if d <? 10 then [Z.to_N (48 + d)] else two d.
  Lemma day_text_digits : digits day_text.
  Proof. unfold day_text. destruct (Z.ltb_spec d 10); [constructor; [apply digit_of; lia|constructor]|now apply two_digits]. Qed.
  Lemma day_text_int : py_int day_text = Ok d.
  Proof. unfold day_text. destruct (Z.ltb_spec d 10); [apply py_int_one; lia|now apply py_int_two]. Qed.
  Lemma day_text_short : (length day_text <= 2)%nat.
  Proof. unfold day_text. destruct (d <? 10); cbn [length two]; lia. Qed.

  Lemma asctime_fits : 0 <= y <= 9999 -> fits re_asctime (asctime_date wd y m d h mi s) = true.
  Proof.
    intros Hy. destruct (short_day wd Hwd) as (a & b & c & E0 & Wa & Wb & Wc & _). destruct (short_month m Hm) as (a' & b' & c' & E & Wa' & Wb' & Wc' & _).
    unfold asctime_date. rewrite E0, E. destruct (hundreds y Hy) as [Y1 Y2]. destruct (tens _ Y1), (tens _ Y2), (tens d Hd).
    assert (D : exists x x', (if d <? 10 then [32%N; Z.to_N (48 + d)] else two d) = [x; x'] /\ is_digit x || (x =? 32)%N = true /\ is_digit x' = true).
    { destruct (Z.ltb_spec d 10); do 2 eexists; (split; [reflexivity|]); [split; [reflexivity|apply digit_of; lia]|]. rewrite !digit_of by assumption. auto. }
    destruct D as (x & x' & -> & Dx & Dx').
    unfold re_asctime, four, two at 1 2. change (lit " ") with [32%N].
    cbn [app fits repeat]. rewrite Wa, Wb, Wc, Wa', Wb', Wc', Dx, Dx'. change (only 32%N 32%N) with true. cbn [andb].
    rewrite (clock_fits h mi s Hh Hmi Hs). cbn [fits]. rewrite !digit_of by assumption. reflexivity.
  Qed.
  Lemma asctime_parsedate : 0 <= y <= 9999 -> parsedate (asctime_date wd y m d h mi s) = Some (full_year y, m, d, h, mi, s).
  Proof.
    intros Hy. unfold asctime_date. destruct (short_day wd Hwd) as (a & b & c & -> & Wa & Wb & Wc & Md & Nc). destruct (short_month m Hm) as (a' & b' & c' & -> & Wa' & Wb' & Wc' & Mm & Mi).
    match goal with |- parsedate ?t = _ => change t with ([a; b; c] ++ 32%N :: [a'; b'; c'] ++ 32%N :: (if d <? 10 then [32%N; Z.to_N (48 + d)] else two d) ++ 32%N :: clock h mi s ++ 32%N :: four y) end.
    unfold parsedate. rewrite (words_cons [a; b; c]).
    2:{ split; [discriminate|]. repeat constructor; now apply word_not_space. }
    rewrite (words_cons [a'; b'; c']).
    2:{ split; [discriminate|]. repeat constructor; now apply word_not_space. }
    set (t := clock h mi s ++ 32%N :: four y).
    replace (words ((if d <? 10 then [32%N; Z.to_N (48 + d)] else two d) ++ 32%N :: t)) with (day_text :: words t).
    2:{ rewrite <- words_cons by (apply solid_digits; [unfold day_text; destruct (d <? 10); discriminate|apply day_text_digits]). unfold day_text. destruct (d <? 10); reflexivity. }
    unfold t. rewrite words_cons by now apply clock_solid. rewrite words_one by (apply solid_digits; [discriminate|now apply four_digits]).
    unfold fields. rewrite Md, orb_true_r. rewrite split_once_none by (apply digits_no; [now apply four_digits|reflexivity]).
    change (match four y with [] => [[a'; b'; c']; day_text; clock h mi s; four y; []] | _ :: _ => [[a'; b'; c']; day_text; clock h mi s; four y; []] end) with [[a'; b'; c']; day_text; clock h mi s; four y; []].
    apply from_fields_ctime; auto; try lia; [|apply day_text_digits|apply day_text_int|discriminate|now apply four_digits|now apply py_int_four].
    assert (X : forall x, digits x -> mem_str (lower x) months = false).
    { clear. intros x Dx. destruct x as [|c x]; [reflexivity|]. pose proof (Forall_inv Dx) as Dc. cbv beta in Dc. unfold is_digit in Dc. rewrite andb_true_iff, !N.leb_le in Dc.
      assert (lower_char c = c). { unfold lower_char. now replace (65 <=? c)%N with false by (symmetry; apply N.leb_gt; lia). }
      cbn [lower map]. rewrite H. destruct (mem_str_spec (c :: map lower_char x) months) as [I|I]; [|reflexivity]. exfalso.
      assert (K : Forall (fun k => exists c r, k = c :: r /\ (97 <= c)%N) months) by (unfold months; cbn [map]; repeat (apply Forall_cons; [do 2 eexists; split; [reflexivity|vm_compute; discriminate]|]); apply Forall_nil).
      rewrite Forall_forall in K. destruct (K _ I) as (c' & r & E & L). injection E as -> _. lia. }
    apply X, day_text_digits.
  Qed.
End Texts.

(** ** parse_date *)
Lemma parse_date_of v y m d h mi s : re_date v = true -> parsedate v = Some (y, m, d, h, mi, s) -> 100 <= y -> parse_date v = Some (timegm y m d h mi s).
Proof.
  intros H1 H2 H3. unfold parse_date. rewrite H1, H2. cbv zeta. now replace (y <? 100) with false by (symmetry; apply Z.ltb_ge; exact H3).
Qed.
Lemma full_year_100 y : 100 <= y -> full_year y = y.
Proof. intros H. unfold full_year. now replace (y <? 100) with false by (symmetry; apply Z.ltb_ge; exact H). Qed.
Lemma full_year_ge y : 0 <= y -> 100 <= full_year y /\ (y < 100 -> 1969 <= full_year y).
Proof. intros H. unfold full_year. rewrite Z.gtb_ltb. destruct (Z.ltb_spec y 100), (Z.ltb_spec 68 y); lia. Qed.
Lemma full_year_850 y : 1969 <= y <= 2068 -> full_year (y mod 100) = y.
Proof.
  intros H. unfold full_year. rewrite Z.gtb_ltb. destruct (Z.ltb_spec (y mod 100) 100), (Z.ltb_spec 68 (y mod 100)); Z.to_euclidean_division_equations; lia.
Qed.

Lemma moment_spec y m d h mi s z : moment y m d h mi s z <-> real y m d /\ 0 <= h < 24 /\ 0 <= mi < 60 /\ 0 <= s < 60 /\ z = timegm y m d h mi s.
Proof.
  unfold moment, timegm. split.
  - intros (n & Hn & H). apply day_no_spec in Hn as [R ->]. cbn [real' number'] in *. unfold number in *. destruct H as (A & B & C & ->). repeat split; try apply R; try lia.
  - intros (R & A & B & C & ->). exists (number y m d). split; [apply day_no_spec; split; [exact R|reflexivity]|]. unfold number. repeat split; lia.
Qed.
Lemma real_100 y m d : real y m d -> 1 <= m <= 12 /\ 0 <= d < 100.
Proof. intros [Hm H]. split; [exact Hm|]. unfold days_in in H. pose proof (leap_z_01 y). destruct (m =? 2); [lia|]. destruct (_ || _); lia. Qed.

(** ** format_date *)
Lemma format_date_spec y m d h mi s : real y m d -> 0 <= h < 24 -> 0 <= mi < 60 -> 0 <= s < 60 -> 0 <= y <= 9999 ->
  format_date (timegm y m d h mi s) = Some (fixdate ((number y m d + 3) mod 7) y m d h mi s).
Proof.
  intros R Hh Hmi Hs Hy. unfold format_date.
  assert (E : timegm y m d h mi s = number y m d * 86400 + (h * 3600 + mi * 60 + s)) by (unfold timegm, number; lia).
  assert (T : timegm y m d h mi s mod 86400 = h * 3600 + mi * 60 + s).
  { symmetry. apply Z.mod_unique with (q := number y m d); [left; lia|]. rewrite E. lia. }
  assert (D : timegm y m d h mi s / 86400 = number y m d).
  { symmetry. apply Z.div_unique with (r := h * 3600 + mi * 60 + s); [left; lia|]. rewrite E. lia. }
  rewrite T, D, civil_number by exact R. cbv zeta.
  replace ((y - 1900 <? -2147483648) || (2147483647 <? y - 1900)) with false by (symmetry; apply orb_false_iff; split; apply Z.ltb_ge; lia).
  replace ((h * 3600 + mi * 60 + s) / 3600) with h by (apply Z.div_unique with (r := mi * 60 + s); [left; lia|lia]).
  replace ((h * 3600 + mi * 60 + s) / 60) with (h * 60 + mi) by (apply Z.div_unique with (r := s); [left; lia|lia]).
  replace ((h * 60 + mi) mod 60) with mi by (apply Z.mod_unique with (q := h); [left; lia|lia]).
  replace ((h * 3600 + mi * 60 + s) mod 60) with s by (apply Z.mod_unique with (q := h * 60 + mi); [left; lia|lia]).
  destruct (real_100 _ _ _ R). rewrite zero_pad_4 by lia. rewrite !zero_pad_2 by lia. unfold fixdate, clock, name_of. rewrite <- !app_assoc. reflexivity.
Qed.

(** Every moment has its date. *)
Lemma moment_ex z : exists y m d h mi s, real y m d /\ 0 <= h < 24 /\ 0 <= mi < 60 /\ 0 <= s < 60 /\ z = timegm y m d h mi s.
Proof.
  destruct (civil_spec (z / 86400)) as (y & m & d & _ & R & N). set (t := z mod 86400).
  pose proof (Z.mod_pos_bound z 86400 eq_refl) as B. fold t in B. pose proof (Z.div_mod z 86400 ltac:(lia)) as E. fold t in E.
  exists y, m, d, (t / 3600), (t / 60 mod 60), (t mod 60). split; [exact R|]. unfold timegm, number in *. clearbody t.
  revert E. rewrite <- N. intros E. clear N. repeat split; Z.to_euclidean_division_equations; lia.
Qed.

(** ** The hexadecimal number *)
Lemma hex_chars n : Forall (fun c => is_space c = false /\ c <> 45 /\ c <> 43 /\ c <> 120 /\ c <> 88 /\ c <> 0 /\ c <> 10 /\ c <> 13 /\ c <> 44)%N (hex n).
Proof.
  unfold hex. eapply Forall_impl; [|apply (show_digits 16); lia]. intros c [k [Hk ->]]. unfold digit_char, is_space.
  destruct (N.ltb_spec k 10); repeat split; try lia; apply orb_false_iff; (split; [apply N.eqb_neq; lia|]); apply andb_false_iff; right; apply N.leb_gt; lia.
Qed.

Lemma lstrip_head (s : str) : match s with [] => True | c :: _ => is_space c = false end -> lstrip is_space s = s.
Proof. destruct s as [|c s]; [reflexivity|]. intros H. cbn [lstrip]. now rewrite H. Qed.

Lemma int16_plain s : no_ends is_space s -> match s with c :: _ => c <> 45 /\ c <> 43 /\ c <> 48 | [] => True end%N ->
  int16 s = match s with [] => None | _ => match value_in 16 0 s with Some n => Some (Z.of_N n) | None => None end end.
Proof.
  intros He H. unfold int16. rewrite strip_id by exact He. destruct s as [|c s]; [reflexivity|]. destruct H as (A & B & C). apply N.eqb_neq in A, B. rewrite A, B.
  clear He A B. destruct c as [|p]; [reflexivity|]. repeat (destruct p as [p|p|]; try reflexivity). all: contradiction.
Qed.

Lemma hex_space n : Forall (fun c => is_space c = false) (hex n).
Proof. eapply Forall_impl; [|apply hex_chars]. intros c H. apply H. Qed.
Lemma solid_no_ends s : Forall (fun c => is_space c = false) s -> no_ends is_space s.
Proof.
  intros H. split; [destruct s; [exact I|now inversion H]|]. apply Forall_rev in H. destruct (rev s); [exact I|now inversion H].
Qed.
Lemma hex_prefix n : match hex n with 48%N :: x :: t => if ((x =? 120) || (x =? 88))%N then t else hex n | _ => hex n end = hex n.
Proof.
  pose proof (hex_chars n) as H. destruct (hex n) as [|c s]; [reflexivity|]. destruct c as [|p]; [reflexivity|].
  repeat (destruct p as [p|p|]; try reflexivity). destruct s as [|x s]; [reflexivity|]. inversion H as [|? ? _ H']; subst. inversion H' as [|? ? Hx _]; subst.
  destruct Hx as (_ & _ & _ & X1 & X2 & _). apply N.eqb_neq in X1, X2. now rewrite X1, X2.
Qed.
Lemma int16_hex z : int16 (hex_of z) = Some z.
Proof.
  unfold hex_of, int16. pose proof (hex_chars (Z.abs_N z)) as Hc. pose proof (hex_space (Z.abs_N z)) as Hs. pose proof (show_nonempty 16 (Z.abs_N z)) as Hn. fold (hex (Z.abs_N z)) in Hn.
  pose proof (show_value 16 (Z.abs_N z) ltac:(lia) ltac:(lia)) as V. fold (hex (Z.abs_N z)) in V. pose proof (hex_prefix (Z.abs_N z)) as P.
  destruct (Z.ltb_spec z 0) as [Hz|Hz].
  - rewrite strip_id by (apply solid_no_ends; constructor; [reflexivity|exact Hs]). change (45 =? 45)%N with true. cbv iota. rewrite lstrip_head by (destruct (hex (Z.abs_N z)); [exact I|now inversion Hs]).
    cbv beta iota zeta. rewrite P, V. destruct (hex (Z.abs_N z)) eqn:E; [exfalso; now apply Hn|]. f_equal. lia.
  - rewrite strip_id by now apply solid_no_ends. destruct (hex (Z.abs_N z)) as [|c s] eqn:E; [exfalso; now apply Hn|].
    inversion Hc as [|? ? (_ & A & B & _) _]; subst. apply N.eqb_neq in A, B. rewrite A, B. cbv beta iota zeta. rewrite P, V. f_equal. lia.
Qed.

Lemma value_in_bad b s c : In c s -> digit_value b c = None -> forall acc, value_in b acc s = None.
Proof.
  induction s as [|x s IH]; intros Hin Hc acc; [destruct Hin|]. cbn [value_in]. destruct Hin as [->|Hin]; [now rewrite Hc|]. destruct (digit_value b x); [|reflexivity]. now apply IH.
Qed.

(** ** What the value of a date header becomes on its way (lines 132-137 and 167-171) *)
Definition shown (v : str) : str :=
  let w := match date_in v with Some x => x | None => v end in
  match date_out w with Some t => t | None => w end.

Arguments only _%N_scope.
Lemma fits_in p c q : forall s, fits (p ++ only c :: q) s = true -> In c s.
Proof.
  induction p as [|x p IH]; intros [|y s] H; try discriminate; cbn [app fits] in H; apply andb_true_iff in H as [H1 H2].
  - left. unfold only in H1. apply N.eqb_eq in H1. now symmetry.
  - right. now apply IH.
Qed.
Lemma re_clock_in : re_clock = [is_digit; is_digit] ++ only 58 :: [is_digit; is_digit; only 58; is_digit; is_digit].
Proof. reflexivity. Qed.
Lemma fits_clock p q s : fits (p ++ re_clock ++ q) s = true -> In 58%N s.
Proof. rewrite re_clock_in. rewrite <- app_assoc, app_assoc. cbn [app]. apply fits_in. Qed.
Lemma re_date_colon v : re_date v = true -> In 58%N v.
Proof.
  assert (G : forall s, fits re_fixdate s || existsb (fun n => fits (re_850 n) s) [6; 7; 8; 9]%nat || fits re_asctime s = true -> In 58%N s).
  { intros s H. apply orb_true_iff in H as [H|H]; [apply orb_true_iff in H as [H|H]|].
    - exact (fits_clock (repeat is_word 3 ++ [only 44; only 32; is_digit; is_digit; only 32] ++ repeat is_word 3 ++ [only 32] ++ repeat is_digit 4 ++ [only 32]) re_gmt s H).
    - apply existsb_exists in H as (n & _ & H). apply (fits_clock (repeat is_word n ++ [only 44; only 32; is_digit; is_digit; only 45] ++ repeat is_word 3 ++ [only 45; is_digit; is_digit; only 32]) re_gmt s).
      rewrite <- !app_assoc. exact H.
    - exact (fits_clock (repeat is_word 3 ++ [only 32] ++ repeat is_word 3 ++ [only 32; (fun c => is_digit c || (c =? 32)%N); is_digit; only 32]) ([only 32] ++ repeat is_digit 4) s H). }
  unfold re_date. intros H. cbn [existsb] in H. apply orb_true_iff in H as [H|H]; [now apply G|]. destruct (rev v) as [|c r] eqn:E; [discriminate|].
  assert (X : forall l, existsb (fun s => fits re_fixdate s || existsb (fun n => fits (re_850 n) s) [6; 7; 8; 9]%nat || fits re_asctime s) l = true -> (forall s, In s l -> s = rev r) -> In 58%N v).
  { intros l Hl Hr. apply existsb_exists in Hl as (s & Hs & Hf). apply G in Hf. rewrite (Hr s Hs) in Hf. rewrite <- (rev_involutive v), E. cbn [rev]. apply in_or_app. now left. }
  eapply X; [exact H|]. intros s Hs. destruct c as [|p]; [destruct Hs|]. repeat (destruct p as [p|p|]; try (destruct Hs as [<-|[]]; reflexivity); try (destruct Hs; fail)).
Qed.

Lemma format_shape z t : format_date z = Some t -> exists wd y m d h mi s, 0 <= wd < 7 /\ real y m d /\ 0 <= h < 24 /\ 0 <= mi < 60 /\ 0 <= s < 60 /\ z = timegm y m d h mi s /\
  wd = (number y m d + 3) mod 7 /\
  t = name_of day_short wd ++ lit ", " ++ two d ++ lit " " ++ name_of month_short (m - 1) ++ lit " " ++ zero_pad 4 y ++ lit " " ++ clock h mi s ++ lit " GMT".
Proof.
  intros H. destruct (moment_ex z) as (y & m & d & h & mi & s & R & Hh & Hmi & Hs & ->). exists ((number y m d + 3) mod 7), y, m, d, h, mi, s.
  split; [apply Z.mod_pos_bound; lia|]. repeat (split; [assumption||reflexivity|]). unfold format_date in H.
  assert (E : timegm y m d h mi s = number y m d * 86400 + (h * 3600 + mi * 60 + s)) by (unfold timegm, number; lia).
  assert (T : timegm y m d h mi s mod 86400 = h * 3600 + mi * 60 + s).
  { symmetry. apply Z.mod_unique with (q := number y m d); [left; lia|]. rewrite E. lia. }
  assert (D : timegm y m d h mi s / 86400 = number y m d).
  { symmetry. apply Z.div_unique with (r := h * 3600 + mi * 60 + s); [left; lia|]. rewrite E. lia. }
  rewrite T, D, civil_number in H by exact R. cbv zeta in H. destruct (_ || _) in H; [discriminate|].
  replace ((h * 3600 + mi * 60 + s) / 3600) with h in H by (apply Z.div_unique with (r := mi * 60 + s); [left; lia|lia]).
  replace ((h * 3600 + mi * 60 + s) / 60) with (h * 60 + mi) in H by (apply Z.div_unique with (r := s); [left; lia|lia]).
  replace ((h * 60 + mi) mod 60) with mi in H by (apply Z.mod_unique with (q := h); [left; lia|lia]).
  replace ((h * 3600 + mi * 60 + s) mod 60) with s in H by (apply Z.mod_unique with (q := h * 60 + mi); [left; lia|lia]).
  destruct (real_100 _ _ _ R). rewrite !zero_pad_2 in H by lia. unfold name_of, clock. rewrite <- !app_assoc. congruence.
Qed.

(** A text that starts as a date is no number. *)
Lemma int16_date a b c r x : is_word a = true -> (a <> 48)%N -> is_space x = false -> int16 (a :: b :: c :: 44%N :: r ++ [x]) = None.
Proof.
  intros Wa Na Hx. assert (a <> 45 /\ a <> 43)%N as [A B] by (split; intros ->; discriminate). rewrite int16_plain.
  - erewrite value_in_bad; [reflexivity|do 3 right; now left|reflexivity].
  - split; [now apply word_not_space|]. change (a :: b :: c :: 44%N :: r ++ [x]) with ((a :: b :: c :: 44%N :: r) ++ [x]). rewrite rev_app_distr. exact Hx.
  - auto.
Qed.
Lemma fixdate_tail wd u : 0 <= wd < 7 -> exists a b c r x, name_of day_short wd ++ lit ", " ++ u ++ lit " GMT" = a :: b :: c :: 44%N :: r ++ [x] /\ is_word a = true /\ (a <> 48)%N /\ is_space x = false /\ x <> 10%N.
Proof.
  intros H. destruct (short_day wd H) as (a & b & c & E & Wa & _). exists a, b, c, (32%N :: u ++ lit " GM"), 84%N. rewrite E. change (lit " GMT") with (lit " GM" ++ [84%N]). cbn [app].
  rewrite <- app_assoc. split; [reflexivity|]. split; [exact Wa|]. split; [|split; [reflexivity|discriminate]].
  intros ->. revert E. clear -H. apply seven in H as [-> | [-> | [-> | [-> | [-> | [-> | ->]]]]]]; discriminate.
Qed.

Lemma fixdate_year wd y m d h mi s : 0 <= wd < 7 -> 1 <= m <= 12 -> 0 <= d < 100 -> 0 <= h < 100 -> 0 <= mi < 100 -> 0 <= s < 100 ->
  re_date (name_of day_short wd ++ lit ", " ++ two d ++ lit " " ++ name_of month_short (m - 1) ++ lit " " ++ zero_pad 4 y ++ lit " " ++ clock h mi s ++ lit " GMT") = true ->
  0 <= y <= 9999.
Proof.
  intros Hwd Hm Hd Hh Hmi Hs H. set (v := name_of day_short wd ++ _) in H. destruct (short_day wd Hwd) as (a & b & c & E & Wa & Wb & Wc & _).
  assert (F : fits re_fixdate v = true).
  { destruct (fixdate_tail wd (two d ++ lit " " ++ name_of month_short (m - 1) ++ lit " " ++ zero_pad 4 y ++ lit " " ++ clock h mi s) Hwd) as (a' & b' & c' & r & x & Ev & _ & _ & _ & X).
    assert (V : v = a' :: b' :: c' :: 44%N :: r ++ [x]) by (rewrite <- Ev; unfold v; rewrite <- !app_assoc; reflexivity).
    unfold re_date in H. match type of H with existsb _ (_ :: ?q) = _ => assert (N1 : q = []) end.
    { rewrite V. change (a' :: b' :: c' :: 44%N :: r ++ [x]) with ((a' :: b' :: c' :: 44%N :: r) ++ [x]). rewrite rev_app_distr. cbn [rev app].
      destruct x as [|p]; [reflexivity|]. repeat (destruct p as [p|p|]; try reflexivity). all: contradiction. }
    rewrite N1 in H. cbn [existsb] in H. rewrite V in H at 2 3 4 5 6. cbn [re_850 repeat app fits re_asctime] in H. change (is_word 44%N) with false in H. change (only 32 44%N) with false in H.
    rewrite ?andb_false_l, ?andb_false_r, ?orb_false_r in H. exact H. }
  destruct (Z_le_dec 0 y) as [Y1|Y1]; [destruct (Z_le_dec y 9999) as [Y2|Y2]; [lia|]|]; exfalso; apply (zero_pad_wrong y); try lia.
  all: destruct (short_month m Hm) as (a' & b' & c' & Em & Wa' & Wb' & Wc' & _).
  all: assert (L : length (zero_pad 4 y) = 4%nat) by (apply fits_length in F; unfold v in F; rewrite E, Em in F; rewrite !app_length in F; unfold clock, two in F; cbn [length app lit] in F; revert F; vm_compute (length re_fixdate); intros F; cbn in F; lia).
  all: split; [exact L|].
  all: destruct (zero_pad 4 y) as [|x0 [|x1 [|x2 [|x3 [|]]]]]; try discriminate L.
  all: unfold v in F; rewrite E, Em in F; unfold re_fixdate, two at 1 in F; change (lit ", ") with [44; 32]%N in F; change (lit " ") with [32%N] in F; cbn [app fits repeat] in F.
  all: repeat match goal with F : _ && _ = true |- _ => apply andb_true_iff in F as [? F] end.
  all: unfold digits; repeat (constructor; [assumption|]); constructor.
Qed.
