(** * Property C101: dates in the simple codec (parameter date). *)
From Coq Require Import String List NArith ZArith Bool Lia.
From Verif Require Import PyBase PyNum Params_Model PyMerge Lib_Model Lib_Spec Lib_Proofs H1_Model H1_Spec H1_Proofs Prop_H1.
From Verif Require Import Simple_Model Simple_Spec Simple_Proofs Simple_Session Prop_Simple SDate_Model SDate_Cal SDate_Text SDate_Proofs PyStr.
Import ListNotations.
Open Scope Z_scope.

(** ** Specification: see also [day_no] (calendar), [fixdate], [rfc850_date],
    [asctime_date] (texts), [moment], [weekday]. *)

(** The date in the preferred form, with the day of the week it had. *)
Definition proper_date (v : str) : Prop := exists y m d h mi s z wd,
  moment y m d h mi s z /\ weekday y m d wd /\ 100 <= y <= 9999 /\ v = fixdate wd y m d h mi s.

(** A text that has a character no hexadecimal number has, and no colon. *)
Definition not_numeric (v : str) : Prop :=
  (exists c, In c v /\ is_space c = false /\ (c <> 43 /\ c <> 45 /\ c <> 120 /\ c <> 88)%N /\ digit_value 16 c = None) /\ ~ In 58%N v.

(** The options: date, with plain text. *)
Definition opts_dates (is_request : bool) (max : Z) : s_opts :=
  mk_s_opts (fun a => a) (fun a => Ok a) true date_in date_out max is_request.

(** ** The three forms are understood, whatever day of the week they claim. *)
Theorem C101_three_forms : forall wd y m d h mi s z, 0 <= wd < 7 -> moment y m d h mi s z ->
  (100 <= y <= 9999 -> parse_date (fixdate wd y m d h mi s) = Some z /\ parse_date (asctime_date wd y m d h mi s) = Some z) /\
  (1969 <= y <= 2068 -> parse_date (rfc850_date wd y m d h mi s) = Some z).
Proof.
  intros wd y m d h mi s z Hwd M. apply moment_spec in M as (R & Hh & Hmi & Hs & ->). destruct (real_100 _ _ _ R) as [Hm Hd].
  split; [intros Hy; split|intros Hy].
  - apply parse_date_of; [|rewrite fixdate_parsedate, full_year_100 by lia; reflexivity|lia]. apply re_date_of. rewrite fixdate_fits by lia. reflexivity.
  - apply parse_date_of; [|rewrite asctime_parsedate, full_year_100 by lia; reflexivity|lia]. apply re_date_of. rewrite asctime_fits by lia. apply orb_true_r.
  - apply parse_date_of; [|rewrite rfc850_parsedate, full_year_850 by lia; reflexivity|lia]. apply re_date_of.
    apply orb_true_iff. left. apply orb_true_iff. right. apply existsb_exists. exists (length (name_of day_long wd)). split; [|apply rfc850_fits; lia].
    destruct (long_day wd Hwd) as (n & Hn & E & _). now rewrite E.
Qed.
Print Assumptions C101_three_forms.

(** ** A number of seconds is shown as its date, and every number in the range has one. *)
Theorem C101_shows : forall y m d h mi s z wd, moment y m d h mi s z -> weekday y m d wd -> 0 <= y <= 9999 ->
  format_date z = Some (fixdate wd y m d h mi s).
Proof.
  intros y m d h mi s z wd M (n & Hn & ->) Hy. apply moment_spec in M as (R & Hh & Hmi & Hs & ->). apply day_no_spec in Hn as [_ ->]. now apply format_date_spec.
Qed.
Print Assumptions C101_shows.

(** The year of any other date: a minus sign if it is before the year 0, then
    its digits, with zeros in front of them until there are four characters. *)
Definition year_text (y : Z) (t : str) : Prop :=
  exists sign ds, t = sign ++ ds /\ (0 <= y /\ sign = [] \/ y < 0 /\ sign = lit "-") /\ digits ds /\ value_in 10 0 ds = Some (Z.abs_N y) /\
    (4 <= length t)%nat /\ (length t = 4%nat \/ ds = dec (Z.abs_N y)).

Lemma zero_pad_year y : year_text y (zero_pad 4 y).
Proof.
  unfold year_text, zero_pad.
  assert (D : forall k, digits (repeat 48%N k ++ dec (Z.abs_N y)) /\ value_in 10 0 (repeat 48%N k ++ dec (Z.abs_N y)) = Some (Z.abs_N y)).
  { intros k. split; [|rewrite zeros_value; apply show_value; lia]. apply Forall_app. split; [|apply dec_is_digits].
    apply Forall_forall. intros c Hc. apply repeat_spec in Hc. subst c. reflexivity. }
  assert (L : forall k, length (repeat 48%N k ++ dec (Z.abs_N y)) = (k + length (dec (Z.abs_N y)))%nat) by (intros k; now rewrite app_length, repeat_length).
  destruct (Z.ltb_spec y 0) as [Hy|Hy].
  - exists (lit "-"), (repeat 48%N (4 - 1 - length (dec (Z.abs_N y))) ++ dec (Z.abs_N y)). split; [reflexivity|]. split; [right; now split|].
    split; [apply D|]. split; [apply D|]. cbn [length]. rewrite L. split; [lia|].
    destruct (le_lt_dec (length (dec (Z.abs_N y))) 3) as [C|C]; [left; lia|right]. replace (4 - 1 - length (dec (Z.abs_N y)))%nat with 0%nat by lia. reflexivity.
  - exists [], (repeat 48%N (4 - length (dec (Z.abs_N y))) ++ dec (Z.abs_N y)). split; [reflexivity|]. split; [left; now split|].
    split; [apply D|]. split; [apply D|]. rewrite L. split; [lia|].
    destruct (le_lt_dec (length (dec (Z.abs_N y))) 4) as [C|C]; [left; lia|right]. replace (4 - length (dec (Z.abs_N y)))%nat with 0%nat by lia. reflexivity.
Qed.

(** Every number of seconds is shown, except if its year does not fit the C
    library's tm_year. *)
Theorem C101_any_year : forall y m d h mi s z wd, moment y m d h mi s z -> weekday y m d wd ->
  (-2147483648 <= y - 1900 <= 2147483647 -> exists t, year_text y t /\
     format_date z = Some (name_of day_short wd ++ lit ", " ++ two d ++ lit " " ++ name_of month_short (m - 1) ++ lit " " ++ t ++ lit " " ++ clock h mi s ++ lit " GMT")) /\
  (~ -2147483648 <= y - 1900 <= 2147483647 -> format_date z = None).
Proof.
  intros y m d h mi s z wd M (n & Hn & ->). apply moment_spec in M as (R & Hh & Hmi & Hs & ->). apply day_no_spec in Hn as [_ ->].
  assert (E : timegm y m d h mi s = number y m d * 86400 + (h * 3600 + mi * 60 + s)) by (unfold timegm, number; lia).
  assert (D : timegm y m d h mi s / 86400 = number y m d).
  { symmetry. apply Z.div_unique with (r := h * 3600 + mi * 60 + s); [left; lia|]. rewrite E. lia. }
  assert (F : forall t, format_date (timegm y m d h mi s) = Some t ->
    t = name_of day_short ((number y m d + 3) mod 7) ++ lit ", " ++ two d ++ lit " " ++ name_of month_short (m - 1) ++ lit " " ++ zero_pad 4 y ++ lit " " ++ clock h mi s ++ lit " GMT").
  { intros t Ht. apply format_shape in Ht as (wd & y' & m' & d' & h' & mi' & s' & _ & R' & Hh' & Hmi' & Hs' & E' & -> & ->).
    assert (E2 : timegm y' m' d' h' mi' s' = number y' m' d' * 86400 + (h' * 3600 + mi' * 60 + s')) by (unfold timegm, number; lia).
    assert (DN : number y' m' d' = number y m d) by lia. assert (h' = h /\ mi' = mi /\ s' = s) as (-> & -> & ->) by lia.
    pose proof (civil_number y m d R) as C1. pose proof (civil_number y' m' d' R') as C2. rewrite DN, C1 in C2. injection C2 as -> -> ->. reflexivity. }
  assert (G : format_date (timegm y m d h mi s) = None <-> ~ -2147483648 <= y - 1900 <= 2147483647).
  { unfold format_date. rewrite D, civil_number by exact R. cbv zeta.
    destruct (Z.ltb_spec (y - 1900) (-2147483648)), (Z.ltb_spec 2147483647 (y - 1900)); cbn [orb]; split; intros K; try discriminate; try reflexivity; try lia; exfalso; apply K; lia. }
  split; [|apply G]. intros K. exists (zero_pad 4 y). split; [apply zero_pad_year|].
  destruct (format_date (timegm y m d h mi s)) as [t|] eqn:T; [f_equal; now apply F|]. destruct (proj1 G eq_refl K).
Qed.
Print Assumptions C101_any_year.

Example C101_old_dates : format_date (-62325244800) = Some (lit "Thu, 29 Dec -006 00:00:00 GMT") /\
  format_date 253402300800 = Some (lit "Sat, 01 Jan 10000 00:00:00 GMT").
Proof. vm_compute. auto. Qed.

Theorem C101_every_second : forall z, exists y m d h mi s wd, moment y m d h mi s z /\ weekday y m d wd.
Proof.
  intros z. destruct (moment_ex z) as (y & m & d & h & mi & s & R & Hh & Hmi & Hs & ->). exists y, m, d, h, mi, s, ((number y m d + 3) mod 7). split.
  - apply moment_spec. auto.
  - exists (number y m d). split; [apply day_no_spec; now split|reflexivity].
Qed.
Print Assumptions C101_every_second.

(** The number on the wire is read back. *)
Theorem C101_number : forall z, int16 (hex_of z) = Some z /\ ~ In 0%N (hex_of z).
Proof.
  intros z. split; [apply int16_hex|]. unfold hex_of. pose proof (hex_chars (Z.abs_N z)) as H. rewrite Forall_forall in H.
  destruct (z <? 0); intros Hin; [destruct Hin as [Hin|Hin]; [discriminate|]|]; apply H in Hin; intuition.
Qed.
Print Assumptions C101_number.

(** ** Exactly which values come back as they were. *)
Theorem C101_unchanged : forall v, shown v = v <-> proper_date v \/ (parse_date v = None /\ date_out v = None).
Proof.
  intros v. split.
  - unfold shown, date_in. destruct (parse_date v) as [z|] eqn:P.
    + unfold date_out at 1. rewrite int16_hex. intros H. left.
      assert (RD : re_date v = true) by (unfold parse_date in P; destruct (re_date v); [reflexivity|discriminate]).
      destruct (format_date z) as [t|] eqn:F.
      * subst t. destruct (format_shape z v F) as (wd & y & m & d & h & mi & s & Hwd & R & Hh & Hmi & Hs & -> & Ewd & Ev). destruct (real_100 _ _ _ R) as [Hm Hd].
        assert (Hy : 0 <= y <= 9999). { rewrite Ev in RD. apply fixdate_year in RD; [exact RD|lia..]. }
        rewrite zero_pad_4 in Ev by exact Hy. change (v = fixdate wd y m d h mi s) in Ev.
        assert (Y : 100 <= y).
        { destruct (Z_le_dec 100 y) as [|N]; [assumption|exfalso]. destruct (full_year_ge y ltac:(lia)) as [F1 F2]. specialize (F2 ltac:(lia)).
          rewrite Ev in P. unfold parse_date in P. rewrite <- Ev, RD, Ev in P. rewrite fixdate_parsedate in P by lia. cbv zeta in P.
          replace (full_year y <? 100) with false in P by (symmetry; apply Z.ltb_ge; lia). assert (E : timegm (full_year y) m d h mi s = timegm y m d h mi s) by congruence.
          unfold timegm in E. pose proof (before_year_mono y (full_year y) ltac:(lia)). pose proof (before_year_mono (y + 1) (full_year y) ltac:(lia)) as B2.
          pose proof (before_month_leap y m Hm). pose proof (before_month_leap (full_year y) m Hm). rewrite before_year_next in B2.
          pose proof (leap_z_01 y). pose proof (leap_z_01 (full_year y)). pose proof (leap_z_01 (y + 1)). destruct (m >? 2); lia. }
        exists y, m, d, h, mi, s, (timegm y m d h mi s), wd. split; [apply moment_spec; auto|]. split; [exists (number y m d); split; [apply day_no_spec; now split|exact Ewd]|]. split; [lia|exact Ev].
      * exfalso. apply re_date_colon in RD. rewrite <- H in RD. clear -RD. unfold hex_of in RD. pose proof (show_digits 16 (Z.abs_N z) ltac:(lia)) as D. rewrite Forall_forall in D.
        fold (hex (Z.abs_N z)) in D. assert (X : In 58%N (hex (Z.abs_N z))) by (destruct (z <? 0); [destruct RD as [RD|RD]; [discriminate|]|]; exact RD).
        destruct (D _ X) as (k & Hk & E). unfold digit_char in E. destruct (N.ltb_spec k 10); lia.
    + intros H. right. split; [reflexivity|]. destruct (date_out v) as [t|] eqn:E; [|reflexivity]. exfalso. subst t. unfold date_out in E.
      destruct (int16 v) as [z|] eqn:I; [|discriminate]. destruct (format_shape z v E) as (wd & y & m & d & h & mi & s & Hwd & _ & _ & _ & _ & _ & _ & Ev).
      destruct (fixdate_tail wd (two d ++ lit " " ++ name_of month_short (m - 1) ++ lit " " ++ zero_pad 4 y ++ lit " " ++ clock h mi s) Hwd) as (a & b & c & r & x & E1 & W & N0 & S1 & _).
      assert (V : v = a :: b :: c :: 44%N :: r ++ [x]) by (rewrite <- E1, Ev, <- !app_assoc; reflexivity). rewrite V, int16_date in I by assumption. discriminate.
  - intros [(y & m & d & h & mi & s & z & wd & M & W & Hy & ->)|[P O]].
    + unfold shown, date_in. assert (Hwd : 0 <= wd < 7) by (destruct W as (n & _ & ->); apply Z.mod_pos_bound; lia).
      destruct (C101_three_forms wd y m d h mi s z Hwd M) as [T _]. destruct (T Hy) as [-> _]. unfold date_out. rewrite int16_hex.
      rewrite (C101_shows y m d h mi s z wd M W) by lia. reflexivity.
    + unfold shown, date_in. now rewrite P, O.
Qed.
Print Assumptions C101_unchanged.

Lemma lstrip_keeps (s : str) c : In c s -> is_space c = false -> In c (lstrip is_space s).
Proof. induction s as [|x s IH]; intros H Hc; [exact H|]. cbn [lstrip]. destruct (is_space x) eqn:E; [|exact H]. destruct H as [->|H]; [congruence|now apply IH]. Qed.
Lemma strip_keeps (s : str) c : In c s -> is_space c = false -> In c (strip is_space s).
Proof.
  intros H Hc. unfold strip, rstrip. rewrite <- in_rev. apply lstrip_keeps; [|exact Hc]. rewrite <- in_rev. now apply lstrip_keeps.
Qed.

Lemma not_numeric_out v : not_numeric v -> date_out v = None.
Proof.
  intros [(c & Hin & Hs & (C1 & C2 & C3 & C4) & Hd) _]. unfold date_out. replace (int16 v) with (@None Z); [reflexivity|]. symmetry. unfold int16.
  pose proof (strip_keeps v c Hin Hs) as Hk. destruct (strip is_space v) as [|x t]; [destruct Hk|].
  assert (G : forall (r : str) (neg : bool), In c r -> match (match r with 48%N :: x :: t => if ((x =? 120) || (x =? 88))%N then t else r | _ => r end) with
     [] => None | _ :: _ => match value_in 16 0 (match r with 48%N :: x :: t => if ((x =? 120) || (x =? 88))%N then t else r | _ => r end) with
        Some n => Some (if neg then - Z.of_N n else Z.of_N n) | None => None end end = None).
  { clear -C3 C4 Hd. intros r neg Hr. set (q := match r with 48%N :: x :: t => if ((x =? 120) || (x =? 88))%N then t else r | _ => r end).
    assert (Hq : In c q).
    { unfold q. destruct r as [|x r]; [destruct Hr|]. destruct x as [|p]; [exact Hr|]. repeat (destruct p as [p|p|]; try exact Hr). destruct r as [|x t]; [exact Hr|].
      destruct ((x =? 120) || (x =? 88))%N eqn:E; [|exact Hr]. destruct Hr as [<-|[->|Hr]]; [discriminate| |exact Hr].
      apply orb_true_iff in E as [E|E]; apply N.eqb_eq in E; contradiction. }
    rewrite (value_in_bad 16 q c Hq Hd). destruct q; reflexivity. }
  destruct (N.eqb_spec x 45) as [->|X1]; [refine (G (lstrip is_space t) true (lstrip_keeps _ _ _ Hs)); destruct Hk as [E|Hk]; [congruence|exact Hk]|].
  destruct (N.eqb_spec x 43) as [->|X2]; [refine (G (lstrip is_space t) false (lstrip_keeps _ _ _ Hs)); destruct Hk as [E|Hk]; [congruence|exact Hk]|].
  exact (G (x :: t) false Hk).
Qed.

Theorem C101_other_texts : forall v, not_numeric v -> shown v = v.
Proof.
  intros v H. apply C101_unchanged. right. split; [|now apply not_numeric_out]. destruct H as [_ H]. unfold parse_date.
  destruct (re_date v) eqn:E; [exfalso; apply H; now apply re_date_colon|reflexivity].
Qed.
Print Assumptions C101_other_texts.

(** ** Sessions: with the date option nothing is lost if the values of the four
    date headers are proper dates or texts like "never". *)
Theorem C101_session : forall is_request max ord msgs, any_order ord ->
  Forall (fun d => simple_message is_request d /\ forall k v, In (k, v) d -> In k s_date_hdrs -> proper_date v \/ not_numeric v) msgs ->
  exists outs, s_session (opts_dates is_request max) ord 0 None None msgs = Ok outs /\ Forall2 arrives msgs outs.
Proof.
  intros r mx ord msgs Ho HF. apply (C30_simple_dates_session (opts_dates r mx)); [exact Ho|reflexivity|]. eapply Forall_impl; [|exact HF]. intros d [Hd Hv]. split; [exact Hd|].
  intros k v Hin _ Hk. cbn [o_din o_dout opts_dates]. destruct (Hv k v Hin Hk) as [P|P].
  - destruct P as (y & m & dd & h & mi & s & z & wd & M & W & Hy & ->). assert (Hwd : 0 <= wd < 7) by (destruct W as (n & _ & ->); apply Z.mod_pos_bound; lia).
    destruct (C101_three_forms wd y m dd h mi s z Hwd M) as [T _]. destruct (T Hy) as [E _]. unfold date_in. rewrite E. split.
    + unfold date_out. rewrite int16_hex. apply C101_shows with (1 := M) (2 := W). lia.
    + intros x Hx. destruct (C101_number z) as [_ N0]. apply piece_of_split in Hx. rewrite split_on_free in Hx by exact N0. destruct Hx as [<-|[]]. apply one_lineb_ok.
      unfold one_lineb. assert (S0 : Forall (fun c => is_space c = false) (hex_of z)).
      { unfold hex_of. destruct (z <? 0); [constructor; [reflexivity|]|]; apply hex_space. }
      rewrite strip_id by now apply solid_no_ends. apply andb_true_iff. split; [|now destruct (str_eqb_spec (hex_of z) (hex_of z))]. apply negb_true_iff.
      destruct (existsb (N.eqb 10) (hex_of z)) eqn:X; [|reflexivity]. exfalso. apply existsb_exists in X as (c & Hc & E1). apply N.eqb_eq in E1. subst c.
      rewrite Forall_forall in S0. specialize (S0 _ Hc). discriminate.
  - unfold date_in. replace (parse_date v) with (@None Z); [now apply not_numeric_out|]. symmetry. unfold parse_date.
    destruct (re_date v) eqn:E; [exfalso; apply P; now apply re_date_colon|reflexivity].
Qed.
Print Assumptions C101_session.

(** ** Dates in other forms, wrong days of the week and plain numbers arrive changed. *)
Theorem C101_any_value_refuted : exists d v v', simple_message false d /\ In (lit "expires", v) d /\
  v' <> v /\ exists d', s_session (opts_dates false 10) (fun _ x => x) 0 None None [d] = Ok [d'] /\ dget d' (lit "expires") = Some v'.
Proof.
  exists [(lit ":status", lit "200"); (lit "expires", lit "-1")], (lit "-1"), (lit "Wed, 31 Dec 1969 23:59:59 GMT").
  split; [|split; [right; now left|split; [discriminate|eexists; split; [vm_compute; reflexivity|vm_compute; reflexivity]]]].
  split; [repeat constructor; cbn; intuition discriminate|]. split; [vm_compute; intuition discriminate|]. split; [vm_compute; intuition discriminate|]. split.
  - exists (lit "200"). split; [now left|]. apply wordb. reflexivity.
  - apply simple_headersb_ok. vm_compute. reflexivity.
Qed.
Print Assumptions C101_any_value_refuted.

(** The example of RFC 2616: three forms, the same second, all shown in the first form. *)
Example C101_example :
  parse_date (lit "Sun, 06 Nov 1994 08:49:37 GMT") = Some 784111777 /\
  parse_date (lit "Sunday, 06-Nov-94 08:49:37 GMT") = Some 784111777 /\
  parse_date (lit "Sun Nov  6 08:49:37 1994") = Some 784111777 /\
  date_in (lit "Sun, 06 Nov 1994 08:49:37 GMT") = Some (lit "2ebc98a1") /\
  shown (lit "Sun Nov  6 08:49:37 1994") = lit "Sun, 06 Nov 1994 08:49:37 GMT" /\
  shown (lit "Mon, 06 Nov 1994 08:49:37 GMT") = lit "Sun, 06 Nov 1994 08:49:37 GMT" /\
  shown (lit "0") = lit "Thu, 01 Jan 1970 00:00:00 GMT" /\
  shown (lit "bad") = lit "Thu, 01 Jan 1970 00:49:49 GMT" /\
  shown (lit "never") = lit "never" /\
  parse_date (lit "Xyz, 45 Nov 1994 77:88:99 GMT") = Some 787732179 /\
  parse_date (lit "012 Nov 16 08:49:37 1994") = parse_date (lit "Sat, 12 Nov 2016 08:49:37 GMT").
Proof. vm_compute. repeat split. Qed.

Example C101_example_meets : proper_date (lit "Sun, 06 Nov 1994 08:49:37 GMT") /\ not_numeric (lit "never").
Proof.
  split.
  - exists 1994, 11, 6, 8, 49, 37, 784111777, 6. split; [apply moment_spec; split; [split; [lia|vm_compute; split; discriminate]|repeat split; try lia; vm_compute; reflexivity]|].
    split; [exists 9075; split; [apply day_no_spec; split; [split; [lia|vm_compute; split; discriminate]|vm_compute; reflexivity]|reflexivity]|]. split; [lia|vm_compute; reflexivity].
  - split; [exists 110%N; split; [now left|]; vm_compute; repeat split; discriminate|]. vm_compute. intuition discriminate.
Qed.
