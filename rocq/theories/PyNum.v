(** * Numbers as text: "%d" and "%x" of a natural number, and reading them back. *)
From Coq Require Import String List NArith ZArith Bool Lia.
From Verif Require Import PyBase.
Import ListNotations.
Open Scope N_scope.

(** The digit characters 0-9 and a-f. *)
Definition digit_char (d : N) : N := if d <? 10 then 48 + d else 87 + d.

(** The digits of [n] in base [b], in front of [acc]. *)
Fixpoint show_loop (k : nat) (b n : N) (acc : str) : str :=
  match k with
  | O => acc
  | S k => let acc := digit_char (n mod b) :: acc in if n / b =? 0 then acc else show_loop k b (n / b) acc
  end.
Definition show (b n : N) : str := show_loop (S (N.to_nat (N.log2 n))) b n [].
Definition dec (n : N) : str := show 10 n.
Definition hex (n : N) : str := show 16 n.

(** A digit of base [b], either case. *)
Definition digit_value (b c : N) : option N :=
  let v := if (48 <=? c) && (c <=? 57) then c - 48
           else if (97 <=? c) && (c <=? 122) then c - 87
           else if (65 <=? c) && (c <=? 90) then c - 55 else 99 in
  if v <? b then Some v else None.
Fixpoint value_in (b acc : N) (s : str) : option N :=
  match s with
  | [] => Some acc
  | c :: r => match digit_value b c with Some v => value_in b (b * acc + v) r | None => None end
  end.

Lemma digit_value_char b d : b <= 36 -> d < b -> digit_value b (digit_char d) = Some d.
Proof.
  intros Hb Hd. unfold digit_value, digit_char. destruct (N.ltb_spec d 10).
  - replace (48 <=? 48 + d) with true by (symmetry; apply N.leb_le; lia). replace (48 + d <=? 57) with true by (symmetry; apply N.leb_le; lia).
    cbn [andb]. replace (48 + d - 48) with d by lia. now replace (d <? b) with true by (symmetry; apply N.ltb_lt; lia).
  - replace (87 + d <=? 57) with false by (symmetry; apply N.leb_gt; lia). rewrite andb_false_r.
    replace (97 <=? 87 + d) with true by (symmetry; apply N.leb_le; lia). replace (87 + d <=? 122) with true by (symmetry; apply N.leb_le; lia).
    cbn [andb]. replace (87 + d - 87) with d by lia. now replace (d <? b) with true by (symmetry; apply N.ltb_lt; lia).
Qed.

Lemma value_in_app b s t acc : value_in b acc (s ++ t) = match value_in b acc s with Some v => value_in b v t | None => None end.
Proof.
  revert acc. induction s as [|c s IH]; intros acc; [reflexivity|]. cbn [value_in app]. destruct (digit_value b c); [apply IH|reflexivity].
Qed.

Lemma show_loop_acc b : forall k n acc, show_loop k b n acc = show_loop k b n [] ++ acc.
Proof.
  induction k as [|k IH]; intros n acc; [reflexivity|]. cbn [show_loop]. destruct (n / b =? 0); [reflexivity|].
  rewrite IH, (IH _ [_]), <- app_assoc. reflexivity.
Qed.

Lemma log2_half q m : q <> 0 -> 2 * q <= m -> N.log2 q < N.log2 m.
Proof. intros Hq H. apply N.log2_le_mono in H. rewrite N.log2_double in H by lia. lia. Qed.

Lemma show_step b n : 2 <= b -> show b n = (if n / b =? 0 then [] else show b (n / b)) ++ [digit_char (n mod b)].
Proof.
  intros Hb. unfold show. cbn [show_loop]. destruct (N.eqb_spec (n / b) 0) as [E|E]; [reflexivity|].
  rewrite show_loop_acc. f_equal.
  assert (G : forall k j m, (N.to_nat (N.log2 m) < k)%nat -> (N.to_nat (N.log2 m) < j)%nat -> show_loop k b m [] = show_loop j b m []).
  { clear n E. induction k as [|k IH]; intros j m Hk Hj; [lia|]. destruct j as [|j]; [lia|]. cbn [show_loop]. destruct (N.eqb_spec (m / b) 0) as [E|E]; [reflexivity|].
    rewrite (show_loop_acc b k), (show_loop_acc b j). f_equal.
    assert (L : N.log2 (m / b) < N.log2 m).
    { apply log2_half; [exact E|]. transitivity (b * (m / b)); [apply N.mul_le_mono_r; exact Hb|apply N.mul_div_le; lia]. }
    apply IH; lia. }
  assert (L : N.log2 (n / b) < N.log2 n).
  { apply log2_half; [exact E|]. transitivity (b * (n / b)); [apply N.mul_le_mono_r; exact Hb|apply N.mul_div_le; lia]. }
  exact (G (N.to_nat (N.log2 n)) (S (N.to_nat (N.log2 (n / b)))) (n / b) ltac:(lia) ltac:(lia)).
Qed.

Lemma show_value b n : 2 <= b -> b <= 36 -> value_in b 0 (show b n) = Some n.
Proof.
  intros H2 H36. induction n as [n IH] using (well_founded_induction N.lt_wf_0).
  rewrite show_step, value_in_app by exact H2. pose proof (N.div_mod' n b) as D. pose proof (N.mod_lt n b ltac:(lia)) as M.
  destruct (N.eqb_spec (n / b) 0) as [E|E].
  - cbn [value_in]. rewrite digit_value_char by assumption. f_equal. rewrite E in D. lia.
  - rewrite IH by (apply N.div_lt; [|lia]; destruct n; [rewrite N.div_0_l in E by lia; congruence|lia]).
    cbn [value_in]. rewrite digit_value_char by assumption. f_equal. lia.
Qed.

Lemma show_nonempty b n : show b n <> [].
Proof.
  unfold show. cbn [show_loop]. destruct (n / b =? 0); [discriminate|]. rewrite show_loop_acc. intros E. apply app_eq_nil in E as [_ E]. discriminate.
Qed.

Lemma show_digits b n : 2 <= b -> Forall (fun c => exists d, d < b /\ c = digit_char d) (show b n).
Proof.
  intros H2. induction n as [n IH] using (well_founded_induction N.lt_wf_0). rewrite show_step by exact H2.
  apply Forall_app. split; [|constructor; [|constructor]; exists (n mod b); split; [apply N.mod_lt; lia|reflexivity]].
  destruct (N.eqb_spec (n / b) 0) as [E|E]; [constructor|]. apply IH, N.div_lt; [|lia].
  destruct n; [rewrite N.div_0_l in E by lia; congruence|lia].
Qed.

Lemma show_inj b n m : 2 <= b -> b <= 36 -> show b n = show b m -> n = m.
Proof. intros H2 H36 E. pose proof (show_value b n H2 H36) as A. rewrite E, show_value in A by assumption. congruence. Qed.

Lemma dec_digits n : Forall (fun c => 48 <= c <= 57) (dec n).
Proof.
  eapply Forall_impl; [|apply (show_digits 10 n); lia]. intros c (d & Hd & ->). unfold digit_char. destruct (N.ltb_spec d 10); lia.
Qed.
