(** * The calendar: specification by the rule for the next day, and proofs. *)
From Coq Require Import String List NArith ZArith Bool Lia Znumtheory.
From Verif Require Import PyBase SDate_Model.
Import ListNotations.
Open Scope Z_scope.

(** ** Specification *)

(** Every fourth year is a leap year, save the centuries not divisible by 400. *)
Definition leap_year (y : Z) : Prop := (4 | y) /\ (~ (100 | y) \/ (400 | y)).

(** The last day of a month. *)
Inductive last_day (y : Z) : Z -> Z -> Prop :=
| last_31 m : In m [1; 3; 5; 7; 8; 10; 12] -> last_day y m 31
| last_30 m : In m [4; 6; 9; 11] -> last_day y m 30
| last_29 : leap_year y -> last_day y 2 29
| last_28 : ~ leap_year y -> last_day y 2 28.

(** The next day. *)
Inductive tomorrow : Z * Z * Z -> Z * Z * Z -> Prop :=
| same_month y m d l : last_day y m l -> 1 <= d < l -> tomorrow (y, m, d) (y, m, d + 1)
| next_month y m l : last_day y m l -> m < 12 -> tomorrow (y, m, l) (y, m + 1, 1)
| next_year y : tomorrow (y, 12, 31) (y + 1, 1, 1).

(** Days are numbered from 1 January 1970, in both directions. *)
Inductive day_no : Z * Z * Z -> Z -> Prop :=
| day_epoch : day_no (1970, 1, 1) 0
| day_after a b n : day_no a n -> tomorrow a b -> day_no b (n + 1)
| day_before a b n : day_no b n -> tomorrow a b -> day_no a (n - 1).

(** ** Proofs *)

Lemma leap_spec y : leap y = true <-> leap_year y.
Proof.
  unfold leap, leap_year. rewrite andb_true_iff, orb_true_iff, negb_true_iff, !Z.eqb_eq, Z.eqb_neq.
  rewrite <- !Z.mod_divide by lia. tauto.
Qed.
Lemma leap_mod y : leap y = true <-> y mod 4 = 0 /\ (y mod 100 <> 0 \/ y mod 400 = 0).
Proof. unfold leap. rewrite andb_true_iff, orb_true_iff, negb_true_iff, !Z.eqb_eq, Z.eqb_neq. tauto. Qed.
Lemma leap_false y : leap y = false <-> ~ (y mod 4 = 0 /\ (y mod 100 <> 0 \/ y mod 400 = 0)).
Proof. rewrite <- leap_mod. destruct (leap y); split; congruence. Qed.

Definition leap_z (y : Z) : Z := if leap y then 1 else 0.
Lemma leap_z_01 y : 0 <= leap_z y <= 1.
Proof. unfold leap_z. destruct (leap y); lia. Qed.

Lemma before_year_next y : before_year (y + 1) = before_year y + 365 + leap_z y.
Proof.
  unfold before_year, leap_z. replace (y + 1 - 1) with y by lia. destruct (leap y) eqn:E.
  - apply leap_mod in E. Z.to_euclidean_division_equations. lia.
  - apply leap_false in E. Z.to_euclidean_division_equations. lia.
Qed.

Definition days_in (y m : Z) : Z :=
  if m =? 2 then 28 + leap_z y else if (m =? 4) || (m =? 6) || (m =? 9) || (m =? 11) then 30 else 31.

Definition real (y m d : Z) : Prop := 1 <= m <= 12 /\ 1 <= d <= days_in y m.
Definition number (y m d : Z) : Z := before_year y + before_month y m + d - 719163.

Lemma twelve m : 1 <= m <= 12 -> m = 1 \/ m = 2 \/ m = 3 \/ m = 4 \/ m = 5 \/ m = 6 \/ m = 7 \/ m = 8 \/ m = 9 \/ m = 10 \/ m = 11 \/ m = 12.
Proof. lia. Qed.

Lemma before_month_leap y m : 1 <= m <= 12 -> before_month y m = nth (Z.to_nat (m - 1)) [0; 31; 59; 90; 120; 151; 181; 212; 243; 273; 304; 334] 0 + (if m >? 2 then leap_z y else 0).
Proof. intros _. unfold before_month, leap_z. destruct (m >? 2); reflexivity. Qed.

Ltac months m H := destruct (twelve m H) as [-> | [-> | [-> | [-> | [-> | [-> | [-> | [-> | [-> | [-> | [-> | ->]]]]]]]]]]].

Ltac closed :=
  repeat (match goal with
  | |- context [nth ?a ?l 0] => let v := eval vm_compute in (nth a l 0) in change (nth a l 0) with v
  | |- context [?a >? ?b] => let v := eval vm_compute in (a >? b) in change (a >? b) with v
  | |- context [?a =? ?b] => let v := eval vm_compute in (a =? b) in change (a =? b) with v
  end; cbn [orb andb]).

(** Months follow one another. *)
Lemma before_month_next y m : 1 <= m < 12 -> before_month y (m + 1) = before_month y m + days_in y m.
Proof.
  intros H. assert (H' : 1 <= m <= 12) by lia. rewrite !before_month_leap by lia. pose proof (leap_z_01 y). unfold days_in.
  months m H'; try (exfalso; lia); closed; lia.
Qed.
Lemma before_month_last y : before_month y 12 + 31 = 365 + leap_z y.
Proof. rewrite before_month_leap by lia. closed. lia. Qed.
Lemma before_month_first y : before_month y 1 = 0.
Proof. rewrite before_month_leap by lia. reflexivity. Qed.

Lemma before_month_mono y m m' : 1 <= m < m' -> m' <= 12 -> before_month y m + days_in y m <= before_month y m'.
Proof.
  intros H H'. pose proof (leap_z_01 y).
  assert (G : forall k, 0 <= k -> m + 1 + k <= 12 -> before_month y m + days_in y m <= before_month y (m + 1 + k)).
  { intros k Hk. pattern k. apply natlike_ind; [|clear k Hk|exact Hk].
    - intros _. rewrite Z.add_0_r, before_month_next by lia. lia.
    - intros k Hk IH Hb. replace (m + 1 + Z.succ k) with (m + 1 + k + 1) by lia. rewrite before_month_next by lia.
      assert (1 <= days_in y (m + 1 + k)) by (unfold days_in; destruct (_ =? 2); [lia|]; destruct (_ || _)%bool; lia). specialize (IH ltac:(lia)). lia. }
  replace m' with (m + 1 + (m' - m - 1)) by lia. apply G; lia.
Qed.

(** A real day lies in its year. *)
Lemma in_year y m d : real y m d -> 1 <= before_month y m + d <= 365 + leap_z y.
Proof.
  intros [Hm Hd]. split.
  - rewrite before_month_leap by exact Hm. pose proof (leap_z_01 y). months m Hm; closed; lia.
  - destruct (Z.eq_dec m 12) as [->|Hn].
    + pose proof (before_month_last y). change (days_in y 12) with 31 in Hd. lia.
    + pose proof (before_month_mono y m 12 ltac:(lia) ltac:(lia)). pose proof (before_month_last y). lia.
Qed.

Lemma before_year_mono y y' : y < y' -> before_year y + 365 + leap_z y <= before_year y'.
Proof.
  intros H. assert (G : forall k, 0 <= k -> before_year y + 365 + leap_z y <= before_year (y + 1 + k)).
  { intros k Hk. pattern k. apply natlike_ind; [|clear k Hk|exact Hk].
    - rewrite Z.add_0_r, before_year_next. lia.
    - intros k Hk IH. replace (y + 1 + Z.succ k) with (y + 1 + k + 1) by lia. rewrite before_year_next. pose proof (leap_z_01 (y + 1 + k)). lia. }
  replace y' with (y + 1 + (y' - y - 1)) by lia. apply G. lia.
Qed.

Lemma number_inj y m d y' m' d' : real y m d -> real y' m' d' -> number y m d = number y' m' d' -> (y, m, d) = (y', m', d').
Proof.
  intros R R' E. unfold number in E. pose proof (in_year _ _ _ R) as I. pose proof (in_year _ _ _ R') as I'.
  assert (y = y') as <-.
  { destruct (Z.lt_trichotomy y y') as [L|[L|L]]; [|exact L|]; pose proof (before_year_mono _ _ L); lia. }
  destruct R as [Hm Hd], R' as [Hm' Hd']. assert (m = m') as <-.
  { destruct (Z.lt_trichotomy m m') as [L|[L|L]]; [|exact L|].
    - pose proof (before_month_mono y m m' ltac:(lia) ltac:(lia)). lia.
    - pose proof (before_month_mono y m' m ltac:(lia) ltac:(lia)). lia. }
  replace d' with d by lia. reflexivity.
Qed.

(** gmtime's year. *)
Lemma year_of_spec n : let y := year_of n in before_year y <= n < before_year (y + 1).
Proof.
  unfold year_of. set (g := 400 * n / 146097 + 1). assert (G : before_year (g - 1) <= n < before_year (g + 2)).
  { unfold g, before_year. Z.to_euclidean_division_equations. lia. }
  destruct (Z.ltb_spec n (before_year g)).
  - replace (g - 1 + 1) with g by lia. lia.
  - destruct (Z.leb_spec (before_year (g + 1)) n); [|lia]. replace (g + 1 + 1) with (g + 2) by lia. lia.
Qed.

Lemma month_of_spec y r : 0 <= r < 365 + leap_z y -> let m := month_of y r in 1 <= m <= 12 /\ before_month y m <= r /\ (m < 12 -> r < before_month y (m + 1)).
Proof.
  intros H m. unfold m, month_of. clear m. pose proof (before_month_first y).
  repeat match goal with |- context [before_month y ?k <=? r] => destruct (Z.leb_spec (before_month y k) r); [cbv zeta; match goal with |- context [before_month y (?a + 1)] => let v := eval vm_compute in (a + 1) in change (a + 1) with v end; lia|] end.
  change (1 + 1) with 2. lia.
Qed.

Lemma civil_spec n : exists y m d, civil n = (y, m, d) /\ real y m d /\ number y m d = n.
Proof.
  unfold civil. set (k := n + 719162). pose proof (year_of_spec k) as Y. cbv zeta in Y. set (y := year_of k) in *. rewrite before_year_next in Y.
  set (r := k - before_year y). assert (Hr : 0 <= r < 365 + leap_z y) by (unfold r; lia). pose proof (month_of_spec y r Hr) as M. cbv zeta in M. set (m := month_of y r) in *.
  exists y, m, (r - before_month y m + 1). split; [reflexivity|]. split.
  - split; [apply M|]. split; [lia|]. destruct M as (M1 & M2 & M3). destruct (Z.eq_dec m 12) as [E|E].
    + pose proof (before_month_last y). rewrite E. change (days_in y 12) with 31. lia.
    + specialize (M3 ltac:(lia)). rewrite before_month_next in M3 by lia. lia.
  - unfold number, r, k. lia.
Qed.

Lemma civil_number y m d : real y m d -> civil (number y m d) = (y, m, d).
Proof.
  intros R. destruct (civil_spec (number y m d)) as (y' & m' & d' & E & R' & N). rewrite E. symmetry. now apply number_inj.
Qed.

(** The rule for the next day. *)
Lemma last_day_spec y m l : last_day y m l -> 1 <= m <= 12 /\ l = days_in y m.
Proof.
  assert (L : forall b, (if leap y then 1 else 0) = b -> leap_z y = b) by (intros b; unfold leap_z; auto).
  intros H. destruct H as [m H|m H|H|H].
  - cbn [In] in H. repeat (destruct H as [<- | H]; [split; [lia|reflexivity]|]). destruct H.
  - cbn [In] in H. repeat (destruct H as [<- | H]; [split; [lia|reflexivity]|]). destruct H.
  - split; [lia|]. apply leap_spec in H. unfold days_in, leap_z. rewrite H. reflexivity.
  - split; [lia|]. rewrite <- leap_spec in H. apply not_true_is_false in H. unfold days_in, leap_z. rewrite H. reflexivity.
Qed.
Lemma last_day_ex y m : 1 <= m <= 12 -> last_day y m (days_in y m).
Proof.
  intros H. months m H; try (apply last_31; cbn; tauto); try (apply last_30; cbn; tauto).
  unfold days_in, leap_z. cbn [Z.eqb Pos.eqb]. destruct (leap y) eqn:E; [apply last_29; now apply leap_spec|apply last_28]. rewrite <- leap_spec. congruence.
Qed.

Definition number' (a : Z * Z * Z) : Z := let '(y, m, d) := a in number y m d.
Definition real' (a : Z * Z * Z) : Prop := let '(y, m, d) := a in real y m d.

Lemma days_in_pos y m : 28 <= days_in y m.
Proof. unfold days_in. pose proof (leap_z_01 y). destruct (_ =? 2); [lia|]. destruct (_ || _)%bool; lia. Qed.

Lemma tomorrow_spec a b : tomorrow a b -> real' a /\ real' b /\ number' b = number' a + 1.
Proof.
  intros H. destruct H as [y m d l L H|y m l L H|y]; cbn [real' number']; unfold real, number.
  - apply last_day_spec in L as [Hm ->]. lia.
  - apply last_day_spec in L as [Hm ->]. pose proof (days_in_pos y m). pose proof (days_in_pos y (m + 1)). rewrite before_month_next by lia. lia.
  - change (days_in y 12) with 31. change (days_in (y + 1) 1) with 31. rewrite before_year_next, before_month_first. pose proof (before_month_last y). lia.
Qed.

Lemma has_tomorrow a : real' a -> exists b, tomorrow a b.
Proof.
  destruct a as [[y m] d]. intros [Hm Hd]. pose proof (last_day_ex y m Hm) as L. destruct (Z.eq_dec d (days_in y m)) as [->|N].
  - destruct (Z.eq_dec m 12) as [->|M].
    + exists (y + 1, 1, 1). change (days_in y 12) with 31. apply next_year.
    + exists (y, m + 1, 1). eapply next_month; [exact L|lia].
  - exists (y, m, d + 1). eapply same_month; [exact L|lia].
Qed.

Lemma day_no_spec a n : day_no a n <-> real' a /\ n = number' a.
Proof.
  split.
  - intros H. induction H as [|a b n _ [_ IH] T|a b n _ [_ IH] T].
    + split; [|reflexivity]. split; [lia|]. unfold days_in. cbn. lia.
    + apply tomorrow_spec in T as (_ & R & E). split; [exact R|lia].
    + apply tomorrow_spec in T as (R & _ & E). split; [exact R|lia].
  - intros [R ->]. assert (G : forall k, 0 <= k -> (forall a, real' a -> number' a = k -> day_no a k) /\ (forall a, real' a -> number' a = - k -> day_no a (- k))).
    { intros k Hk. pattern k. apply natlike_ind; [|clear k Hk|exact Hk].
      - assert (Z0 : forall a, real' a -> number' a = 0 -> day_no a 0).
        { intros [[y m] d] Ra Ea. replace (y, m, d) with (1970, 1, 1); [constructor|]. apply number_inj; [|exact Ra|exact (eq_sym Ea)]. split; [lia|]. unfold days_in. cbn. lia. }
        split; exact Z0.
      - intros k Hk [IH1 IH2]. split.
        + clear a R. intros a Ra Ea. destruct (civil_spec k) as (y & m & d & _ & Rc & Nc). destruct (has_tomorrow (y, m, d) Rc) as [b Tb].
          pose proof (tomorrow_spec _ _ Tb) as (_ & Rb & Nb). cbn [number'] in Nb.
          assert (b = a) as <-.
          { destruct a as [[ya ma] da], b as [[yb mb] db]. apply number_inj; [exact Rb|exact Ra|]. cbn [number'] in *. lia. }
          replace (Z.succ k) with (k + 1) by lia. eapply day_after; [|exact Tb]. apply IH1; [exact Rc|exact Nc].
        + clear a R. intros a Ra Ea. destruct (has_tomorrow a Ra) as [b Tb]. pose proof (tomorrow_spec _ _ Tb) as (_ & Rb & Nb).
          replace (- Z.succ k) with (- k - 1) by lia. eapply day_before; [|exact Tb]. apply IH2; [exact Rb|lia]. }
    destruct (Z.le_ge_cases 0 (number' a)) as [H|H].
    + apply (G (number' a) H); auto.
    + destruct (G (- number' a) ltac:(lia)) as [_ G2]. specialize (G2 a R). rewrite Z.opp_involutive in G2. now apply G2.
Qed.
