(** * Property C26: toggle ranges cover exactly the toggled indices. *)
From Coq Require Import String List NArith ZArith Bool Arith Lia Permutation.
From Verif Require Import PyBase PyStr D2Store_Model D2Code_Model.
Import ListNotations.
Open Scope Z_scope.
Open Scope py_scope.

(** The indices a range covers: the integers from [start] to [last]. *)
Definition covers (start last : Z) (l : list Z) : Prop :=
  start <= last /\ NoDup l /\ forall i, In i l <-> start <= i <= last.

(** The decompressor's reading of ranges and single toggles. *)
Definition expand (r : list Z * list (Z * Z)) : list Z :=
  fst r ++ flat_map (fun p => xrange (snd p) (fst p + 1)) (snd r).

Lemma xrange_In a b i : In i (xrange a b) <-> a <= i < b.
Proof.
  unfold xrange. rewrite in_map_iff. split.
  - intros (n & <- & Hn). apply in_seq in Hn. lia.
  - intros H. exists (Z.to_nat (i - a)). split; [lia|]. apply in_seq. lia.
Qed.
Lemma xrange_NoDup a b : NoDup (xrange a b).
Proof.
  unfold xrange. apply FinFun.Injective_map_NoDup; [intros x y; lia|apply seq_NoDup].
Qed.
Lemma xrange_snoc a b : a <= b -> xrange a (b + 1) = xrange a b ++ [b].
Proof.
  intros H. unfold xrange. replace (Z.to_nat (b + 1 - a)) with (S (Z.to_nat (b - a))) by lia.
  rewrite seq_S, map_app. cbn [map]. do 2 f_equal. lia.
Qed.

Lemma insert_sorted_perm x l : Permutation (insert_sorted x l) (x :: l).
Proof.
  induction l as [|y l IH]; cbn; [reflexivity|]. destruct (x <=? y); [reflexivity|]. rewrite IH. apply perm_swap.
Qed.
Lemma sorted_perm l : Permutation (sorted l) l.
Proof. induction l as [|x l IH]; cbn; [reflexivity|]. rewrite insert_sorted_perm. now rewrite IH. Qed.

Lemma ranges_loop_ok toggles : forall ot otr n ot' otr' n', Forall (fun p => snd p < fst p) otr ->
  ranges_loop toggles ot otr n = (ot', otr', n') ->
  Permutation (expand (ot', otr')) (toggles ++ expand (ot, otr)) /\ Forall (fun p => snd p < fst p) otr'.
Proof.
  induction toggles as [|x r IH]; intros ot otr n ot' otr' n' HF E; cbn [ranges_loop] in E.
  { injection E as <- <- <-. split; [reflexivity|exact HF]. }
  cbv zeta in E.
  assert (S : match ot with
        | t :: ot'0 => if x - t =? 1 then ranges_loop r ot'0 ((x, t) :: otr) (S n) else ranges_loop r (x :: ot) otr n
        | [] => ranges_loop r (x :: ot) otr n
        end = (ot', otr', n') -> Permutation (expand (ot', otr')) ((x :: r) ++ expand (ot, otr)) /\ Forall (fun p => snd p < fst p) otr').
  { clear E. assert (A : ranges_loop r (x :: ot) otr n = (ot', otr', n') ->
      Permutation (expand (ot', otr')) ((x :: r) ++ expand (ot, otr)) /\ Forall (fun p => snd p < fst p) otr').
    { intros E. apply IH in E as [P F]; [|exact HF]. split; [|exact F]. rewrite P. unfold expand. cbn [fst snd app]. symmetry. apply Permutation_middle. }
    intros E. destruct ot as [|t ot0]; [now apply A|]. destruct (Z.eqb_spec (x - t) 1) as [Ex|Ex]; [|now apply A].
    apply IH in E as [P F]; [|constructor; [cbn; lia|exact HF]]. split; [|exact F]. rewrite P. unfold expand. cbn [fst snd flat_map].
    replace x with (t + 1) by lia. rewrite xrange_snoc, xrange_snoc by lia.
    assert (E0 : xrange t t = []) by (unfold xrange; now rewrite Z.sub_diag). rewrite E0. cbn [app].
    set (f := flat_map _ otr). rewrite <- (Permutation_middle ot0 _ t), <- (Permutation_middle ot0 _ (t + 1)).
    rewrite <- (Permutation_middle r _ t). rewrite <- (Permutation_middle r _ (t + 1)). rewrite <- (Permutation_middle r _ t). apply perm_swap. }
  destruct otr as [|[i start] otr0]; [now apply S|]. destruct (Z.eqb_spec (x - i) 1) as [Ex|Ex]; [|now apply S].
  inversion HF as [|? ? H1 H2]; subst. cbn [fst snd] in H1. apply IH in E as [P F]; [|constructor; [cbn; lia|exact H2]]. split; [|exact F].
  rewrite P. unfold expand. cbn [fst snd flat_map]. replace x with (i + 1) by lia. rewrite xrange_snoc by lia.
  set (f := flat_map _ otr0). set (q := xrange start (i + 1)). cbn [app].
  rewrite <- app_assoc. cbn [app]. rewrite <- (Permutation_middle q f (i + 1)). rewrite <- (Permutation_middle ot _ (i + 1)).
  rewrite <- (Permutation_middle r _ (i + 1)). reflexivity.
Qed.

Lemma figure_out_ok ops : Permutation (expand (figure_out_ranges ops)) ops /\ Forall (fun p => snd p < fst p) (snd (figure_out_ranges ops)).
Proof.
  unfold figure_out_ranges. destruct (ranges_loop (sorted ops) [] [] 0) as [[ot otr] n] eqn:E.
  destruct (n <=? 2)%nat.
  - split; [|constructor]. unfold expand. cbn. rewrite app_nil_r. apply sorted_perm.
  - apply ranges_loop_ok in E as [P F]; [|constructor]. split.
    + unfold expand in *. cbn [fst snd flat_map app] in *. rewrite app_nil_r in P. rewrite <- (sorted_perm ops), <- P.
      apply Permutation_app; [symmetry; apply Permutation_rev|]. apply Permutation_flat_map. symmetry. apply Permutation_rev.
    + cbn [snd]. apply Forall_rev. exact F.
Qed.

(** For all lists of toggles, with or without repetitions: every index is
    covered as often as it was listed. *)
Theorem C26_ranges_exact : forall ops, Permutation (expand (figure_out_ranges ops)) ops.
Proof. intros ops. apply figure_out_ok. Qed.
Print Assumptions C26_ranges_exact.

(** The same in other words: distinct toggles come back each once, and every
    range is a run of at least two consecutive indices, all of them toggled. *)
Theorem C26_each_once : forall ops, NoDup ops ->
  NoDup (expand (figure_out_ranges ops)) /\ (forall i, In i (expand (figure_out_ranges ops)) <-> In i ops) /\
  forall last start, In (last, start) (snd (figure_out_ranges ops)) ->
    start < last /\ covers start last (xrange start (last + 1)) /\ forall i, start <= i <= last -> In i ops.
Proof.
  intros ops Hn. destruct (figure_out_ok ops) as [P F]. split; [eapply Permutation_NoDup; [symmetry; exact P|exact Hn]|]. split.
  - intros i. split; apply Permutation_in; [exact P|symmetry; exact P].
  - intros last start H. rewrite Forall_forall in F. pose proof (F _ H) as Hlt. cbn [fst snd] in Hlt. split; [exact Hlt|]. split.
    + split; [lia|]. split; [apply xrange_NoDup|]. intros i. rewrite xrange_In. lia.
    + intros i Hi. apply (Permutation_in _ P). unfold expand. apply in_or_app. right. apply in_flat_map. exists (last, start).
      split; [exact H|]. cbn [fst snd]. apply xrange_In. lia.
Qed.
Print Assumptions C26_each_once.

(** Eleven toggles in no particular order: two ranges and three single ones; two
    adjacent pairs alone are not worth a range. *)
Example C26_nontrivial :
  figure_out_ranges [70; 3; 71; 68; 69; 5; 66; 72; 4; 100; 98] = ([66; 98; 100], [(5, 3); (72, 68)]) /\
  figure_out_ranges [9; 8; 4; 3] = ([3; 4; 8; 9], []).
Proof. split; reflexivity. Qed.

(** ** When ranges are used, and which *)

(** A run: at least two consecutive indices, all in the set, that cannot be made longer. *)
Definition run_of (S : Z -> Prop) (last start : Z) : Prop :=
  start < last /\ (forall i, start <= i <= last -> S i) /\ ~ S (start - 1) /\ ~ S (last + 1).
Definition alone (S : Z -> Prop) (i : Z) : Prop := S i /\ ~ S (i - 1) /\ ~ S (i + 1).
(** How many indices follow another one, that is what writing runs as ranges saves. *)
Definition joins (l : list Z) : nat := length (filter (fun i => existsb (Z.eqb (i - 1)) l) l).

Lemma run_unique S l a b : run_of S l a -> run_of S l b -> a = b.
Proof.
  intros (A1 & A2 & A3 & _) (B1 & B2 & B3 & _). destruct (Z.lt_trichotomy a b) as [L|[L|L]]; [|exact L|]; exfalso.
  - apply B3. apply A2. lia.
  - apply A3. apply B2. lia.
Qed.

Inductive down : list Z -> Prop :=
| down_nil : down []
| down_cons x l : (forall y, In y l -> y < x) -> down l -> down (x :: l).

(** The state of the loop after the indices [D], all of them below the rest. *)
Record looped (D : list Z) (ot : list Z) (otr : list (Z * Z)) (n : nat) : Prop := {
  lp_alone : forall i, In i ot <-> alone (fun z => In z D) i;
  lp_runs : forall l a, In (l, a) otr <-> run_of (fun z => In z D) l a;
  lp_n : n = joins D;
  lp_down : down ot;
  lp_down2 : down (map fst otr) }.

Lemma existsb_in x l : existsb (Z.eqb x) l = true <-> In x l.
Proof. rewrite existsb_exists. split; [intros (y & H & E); apply Z.eqb_eq in E; now subst|intros H; exists x; split; [exact H|apply Z.eqb_refl]]. Qed.

Lemma joins_snoc D x : (forall i, In i D -> i < x) -> joins (D ++ [x]) = (joins D + (if existsb (Z.eqb (x - 1)) D then 1 else 0))%nat.
Proof.
  intros H. unfold joins. rewrite filter_app, app_length. f_equal.
  - f_equal. apply filter_ext_in. intros i Hi. rewrite existsb_app. cbn [existsb]. specialize (H i Hi).
    destruct (Z.eqb_spec (i - 1) x); [lia|]. now rewrite !orb_false_r.
  - cbn [filter]. rewrite existsb_app. cbn [existsb]. destruct (Z.eqb_spec (x - 1) x); [lia|]. rewrite !orb_false_r.
    destruct (existsb (Z.eqb (x - 1)) D); reflexivity.
Qed.

Lemma looped_step D ot otr n x : (forall i, In i D -> i < x) -> looped D ot otr n ->
  (* extended *) (forall a otr', otr = (x - 1, a) :: otr' -> looped (D ++ [x]) ot ((x, a) :: otr') (S n)) /\
  (* begun *) ((forall a otr', otr <> (x - 1, a) :: otr') -> forall ot', ot = (x - 1) :: ot' -> looped (D ++ [x]) ot' ((x, x - 1) :: otr) (S n)) /\
  (* alone *) ((forall a otr', otr <> (x - 1, a) :: otr') -> (forall ot', ot <> (x - 1) :: ot') -> looped (D ++ [x]) (x :: ot) otr n).
Proof.
  intros HD [L1 L2 L3 L4 L5].
  assert (HI : forall z, In z (D ++ [x]) <-> In z D \/ z = x) by (intros z; rewrite in_app_iff; cbn; intuition).
  assert (Nx : ~ In x D) by (intros C; apply HD in C; lia). assert (Nx1 : ~ In (x + 1) D) by (intros C; apply HD in C; lia).
  assert (Old : forall l a, l <> x -> l <> x - 1 -> (run_of (fun z => In z (D ++ [x])) l a <-> run_of (fun z => In z D) l a)).
  { intros l a H1 H2. split; intros (R1 & R2 & R3 & R4).
    - assert (Hl : l < x). { assert (X : In l (D ++ [x])) by (apply R2; lia). apply HI in X as [X|X]; [now apply HD|contradiction]. }
      split; [exact R1|]. split; [|split; intros C; [apply R3|apply R4]; apply HI; now left].
      intros i Hi. assert (X : In i (D ++ [x])) by now apply R2. apply HI in X as [X|X]; [exact X|lia].
    - assert (Hl : l < x) by (apply HD, R2; lia).
      split; [exact R1|]. split; [intros i Hi; apply HI; left; now apply R2|]. split; intros C; apply HI in C as [C|C]; try contradiction; lia. }
  assert (OldA : forall i, i <> x -> i <> x - 1 -> (alone (fun z => In z (D ++ [x])) i <-> alone (fun z => In z D) i)).
  { intros i H1 H2. unfold alone. rewrite !HI. split.
    - intros ([A|A] & B & C); [|contradiction]. tauto.
    - intros (A & B & C). pose proof (HD i A). split; [now left|]. split; intros [E|E]; try contradiction; lia. }
  assert (Nax : In (x - 1) D -> forall i, alone (fun z => In z (D ++ [x])) i -> i <> x /\ i <> x - 1).
  { intros H i (A & B & C). split; intros ->; [apply B, HI; now left|apply C, HI; right; lia]. }
  assert (Nrx : forall a, ~ run_of (fun z => In z (D ++ [x])) (x - 1) a) by (intros a (_ & _ & _ & C); apply C, HI; right; lia).
  split; [|split].
  - intros a otr' ->. assert (R : run_of (fun z => In z D) (x - 1) a) by (apply L2; now left). pose proof R as (R1 & R2 & R3 & R4).
    assert (H1 : In (x - 1) D) by (apply R2; lia). assert (H2 : In (x - 2) D) by (apply R2; lia).
    cbn [map fst] in L5. inversion L5 as [|? ? D1 D2]; subst. split.
    + intros i. rewrite L1. split.
      * intros A. assert (i <> x) by (intros ->; destruct A; contradiction). assert (i <> x - 1) by (intros ->; destruct A as (_ & B & _); apply B; replace (x - 1 - 1) with (x - 2) by lia; exact H2).
        now apply OldA.
      * intros A. destruct (Nax H1 i A). now apply OldA.
    + intros l b. cbn [In]. split.
      * intros [E|E].
        -- injection E as <- <-. split; [lia|]. split; [|split].
           ++ intros i Hi. apply HI. destruct (Z.eq_dec i x); [now right|]. left. apply R2. lia.
           ++ intros C. apply HI in C as [C|C]; [contradiction|lia].
           ++ intros C. apply HI in C as [C|C]; [contradiction|lia].
        -- assert (Hl : l < x - 1) by (apply D1; change l with (fst (l, b)); now apply in_map).
           apply Old; [lia|lia|]. apply L2. now right.
      * intros Rb. destruct (Z.eq_dec l x) as [->|N].
        -- left. f_equal. pose proof Rb as (B1 & B2 & B3 & B4).
           apply (run_unique (fun z => In z D) (x - 1)); [exact R|]. destruct (Z.eq_dec b (x - 1)) as [->|Nb].
           ++ exfalso. apply B3, HI. left. replace (x - 1 - 1) with (x - 2) by lia. exact H2.
           ++ split; [lia|]. split; [|split].
              ** intros i Hi. assert (X : In i (D ++ [x])) by (apply B2; lia). apply HI in X as [X|X]; [exact X|lia].
              ** intros C. apply B3, HI. now left.
              ** replace (x - 1 + 1) with x by lia. exact Nx.
        -- destruct (Z.eq_dec l (x - 1)) as [->|N']; [exfalso; exact (Nrx b Rb)|]. right. apply Old in Rb; [|lia|lia]. apply L2 in Rb as [E|E]; [injection E as E _; congruence|exact E].
    + rewrite joins_snoc by exact HD. apply existsb_in in H1. rewrite H1. lia.
    + exact L4.
    + cbn [map fst]. constructor; [|exact D2]. intros y Hy. specialize (D1 y Hy). lia.
  - intros Ne ot' ->. assert (A : alone (fun z => In z D) (x - 1)) by (apply L1; now left). pose proof A as (A1 & A2 & A3).
    inversion L4 as [|? ? D1 D2]; subst. split.
    + intros i. split.
      * intros Hi. assert (i < x - 1) by now apply D1. apply OldA; [lia|lia|]. apply L1. now right.
      * intros Hi. destruct (Nax A1 i Hi). apply OldA in Hi; auto. apply L1 in Hi as [E|E]; [congruence|exact E].
    + intros l b. cbn [In]. split.
      * intros [E|E].
        -- injection E as <- <-. split; [lia|]. split; [|split].
           ++ intros i Hi. apply HI. destruct (Z.eq_dec i x); [now right|]. left. replace i with (x - 1) by lia. exact A1.
           ++ intros C. apply HI in C as [C|C]; [contradiction|lia].
           ++ intros C. apply HI in C as [C|C]; [contradiction|lia].
        -- apply L2 in E as R. pose proof R as (R1 & R2 & R3 & R4). assert (l < x) by (apply HD, R2; lia). assert (l <> x - 1) by (intros ->; apply A2, R2; lia).
           apply Old; [lia|assumption|exact R].
      * intros Rb. destruct (Z.eq_dec l x) as [->|N].
        -- left. f_equal. destruct Rb as (B1 & B2 & B3 & B4). destruct (Z.eq_dec b (x - 1)); [congruence|]. exfalso. apply A2.
           assert (X : In (x - 1 - 1) (D ++ [x])) by (apply B2; lia). apply HI in X as [X|X]; [exact X|lia].
        -- destruct (Z.eq_dec l (x - 1)) as [->|N']; [exfalso; exact (Nrx b Rb)|]. right. apply L2. now apply Old.
    + rewrite joins_snoc by exact HD. apply existsb_in in A1. rewrite A1. lia.
    + exact D2.
    + cbn [map fst]. constructor; [|exact L5]. intros y Hy. apply in_map_iff in Hy as ([l b] & <- & Hy). cbn [fst]. apply L2 in Hy as (R1 & R2 & _). apply HD, R2. lia.
  - intros Ne1 Ne2.
    assert (H1 : ~ In (x - 1) D).
    { intros H. destruct (in_dec Z.eq_dec (x - 2) D) as [H2|H2].
      - (* in a run: the newest one *)
        assert (Ha : exists a, run_of (fun z => In z D) (x - 1) a).
        { assert (G : forall k a, a <= x - 2 -> (forall i, a <= i <= x - 1 -> In i D) -> (forall i, In i D -> a - Z.of_nat k <= i) -> exists a, run_of (fun z => In z D) (x - 1) a).
          { induction k as [|k IH]; intros a Ha Hr Hb.
            - exists a. split; [lia|]. split; [exact Hr|]. split; [|replace (x - 1 + 1) with x by lia; exact Nx]. intros C. apply Hb in C. lia.
            - destruct (in_dec Z.eq_dec (a - 1) D) as [C|C].
              + apply (IH (a - 1)); [lia| |intros i Hi; specialize (Hb i Hi); lia]. intros i Hi. destruct (Z.eq_dec i (a - 1)) as [->|]; [exact C|apply Hr; lia].
              + exists a. split; [lia|]. split; [exact Hr|]. split; [exact C|replace (x - 1 + 1) with x by lia; exact Nx]. }
          assert (B : exists b, forall i, In i D -> b <= i).
          { clear. induction D as [|y D (b & Hb)]; [exists 0; contradiction|]. exists (Z.min y b). intros i [<-|Hi]; [lia|]. specialize (Hb i Hi). lia. }
          destruct B as (b & Hb). apply (G (Z.to_nat (x - 2 - b)) (x - 2)); [lia| |intros i Hi; specialize (Hb i Hi); pose proof (Hb' := Hb); lia].
          intros i Hi. destruct (Z.eq_dec i (x - 1)) as [->|]; [exact H|replace i with (x - 2) by lia; exact H2]. }
        destruct Ha as (a & Ha). apply L2 in Ha as Hin. destruct otr as [|[l b] otr']; [contradiction|].
        destruct Hin as [E|Hin]; [injection E as -> ->; exact (Ne1 a otr' eq_refl)|].
        cbn [map fst] in L5. inversion L5 as [|? ? D1 _]; subst. assert (x - 1 < l) by (apply D1; change (x - 1) with (fst (x - 1, a)); now apply in_map).
        assert (R : run_of (fun z => In z D) l b) by (apply L2; now left). destruct R as (R1 & R2 & _). assert (l < x) by (apply HD, R2; lia). lia.
      - assert (A : alone (fun z => In z D) (x - 1)) by (split; [exact H|]; split; [replace (x - 1 - 1) with (x - 2) by lia; exact H2|replace (x - 1 + 1) with x by lia; exact Nx]).
        apply L1 in A as Hin. destruct ot as [|t ot']; [contradiction|]. destruct Hin as [E|Hin]; [subst t; exact (Ne2 ot' eq_refl)|].
        inversion L4 as [|? ? D1 _]; subst. specialize (D1 _ Hin). assert (Ht : In t (t :: ot')) by now left. apply L1 in Ht as (Ht & _). apply HD in Ht. lia. }
    assert (Hr : forall l, In l D -> l <> x - 1) by (intros l Hl ->; contradiction).
    split.
    + intros i. cbn [In]. split.
      * intros [<-|Hi].
        -- split; [apply HI; now right|]. split; intros C; apply HI in C as [C|C]; try contradiction; lia.
        -- apply L1 in Hi as Ha. destruct Ha as (A & B). assert (i < x) by now apply HD. apply OldA; [lia|now apply Hr|now apply L1].
      * intros Hi. destruct (Z.eq_dec i x) as [->|N]; [now left|]. right. apply L1. apply OldA; auto. destruct Hi as (X & _). apply HI in X as [X|X]; [now apply Hr|contradiction].
    + intros l b. rewrite L2. split.
      * intros R. pose proof R as (R1 & R2 & _). assert (In l D) by (apply R2; lia). pose proof (HD l H). apply Old; [lia|now apply Hr|exact R].
      * intros R. destruct (Z.eq_dec l x) as [->|N].
        -- exfalso. destruct R as (R1 & R2 & _). assert (X : In (x - 1) (D ++ [x])) by (apply R2; lia). apply HI in X as [X|X]; [contradiction|lia].
        -- destruct (Z.eq_dec l (x - 1)) as [->|N']; [exfalso; exact (Nrx b R)|]. now apply Old.
    + rewrite joins_snoc by exact HD. destruct (existsb (Z.eqb (x - 1)) D) eqn:E; [apply existsb_in in E; contradiction|]. lia.
    + constructor; [|exact L4]. intros y Hy. apply L1 in Hy as (Hy & _). now apply HD.
    + exact L5.
Qed.

Inductive up : list Z -> Prop :=
| up_nil : up []
| up_cons x l : (forall y, In y l -> x < y) -> up l -> up (x :: l).
Lemma up_sorted l : NoDup l -> up (sorted l).
Proof.
  unfold sorted. induction l as [|x l IH]; intros Hn; cbn [fold_right]; [constructor|]. inversion Hn as [|? ? N1 N2]; subst. specialize (IH N2).
  assert (Ns : ~ In x (sorted l)) by (intros C; apply N1; eapply Permutation_in; [apply sorted_perm|exact C]). fold (sorted l) in *.
  clear - IH Ns. induction IH as [|y r H U IH]; cbn [insert_sorted]; [constructor; [contradiction|constructor]|].
  destruct (Z.leb_spec x y) as [L|L].
  - assert (x <> y) by (intros ->; apply Ns; now left). constructor; [|constructor; assumption]. intros z [<-|Hz]; [lia|]. specialize (H z Hz). lia.
  - constructor; [|apply IH; intros C; apply Ns; now right]. intros z Hz. eapply Permutation_in in Hz; [|apply insert_sorted_perm]. destruct Hz as [<-|Hz]; auto.
Qed.

Lemma ranges_looped r : forall D ot otr n, up r -> (forall i j, In i D -> In j r -> i < j) -> looped D ot otr n ->
  forall ot' otr' n', ranges_loop r ot otr n = (ot', otr', n') -> looped (D ++ r) ot' otr' n'.
Proof.
  induction r as [|x r IH]; intros D ot otr n U HD L ot' otr' n' E.
  - cbn [ranges_loop] in E. injection E as <- <- <-. now rewrite app_nil_r.
  - inversion U as [|? ? U1 U2]; subst. destruct (looped_step D ot otr n x) as (S1 & S2 & S3); [intros i Hi; apply HD; [exact Hi|now left]|exact L|].
    assert (HD' : forall i j, In i (D ++ [x]) -> In j r -> i < j).
    { intros i j Hi Hj. apply in_app_or in Hi as [Hi|[<-|[]]]; [apply HD; [exact Hi|now right]|now apply U1]. }
    replace (D ++ x :: r) with ((D ++ [x]) ++ r) by now rewrite <- app_assoc.
    assert (Q : (forall a o, otr <> (x - 1, a) :: o) -> match ot with
        | t :: ot'0 => if x - t =? 1 then ranges_loop r ot'0 ((x, t) :: otr) (S n) else ranges_loop r (x :: ot) otr n
        | [] => ranges_loop r (x :: ot) otr n
        end = (ot', otr', n') -> looped ((D ++ [x]) ++ r) ot' otr' n').
    { intros Ne E'. destruct ot as [|t ot0].
      - apply (IH _ _ _ _ U2 HD' (S3 Ne ltac:(intros o; discriminate)) _ _ _ E').
      - destruct (Z.eqb_spec (x - t) 1) as [Et|Et].
        + assert (t = x - 1) by lia. subst t. apply (IH _ _ _ _ U2 HD' (S2 Ne _ eq_refl) _ _ _ E').
        + apply (IH _ _ _ _ U2 HD' (S3 Ne ltac:(intros o C; injection C as C _; lia)) _ _ _ E'). }
    cbn [ranges_loop] in E. cbv zeta in E. destruct otr as [|[i a] otr0].
    + apply Q; [discriminate|exact E].
    + destruct (Z.eqb_spec (x - i) 1) as [Ei|Ei].
      * assert (i = x - 1) by lia. subst i. apply (IH _ _ _ _ U2 HD' (S1 _ _ eq_refl) _ _ _ E).
      * apply Q; [|exact E]. intros b o C. injection C as C _ _. lia.
Qed.

Lemma joins_perm a b : Permutation a b -> joins a = joins b.
Proof.
  intros P. unfold joins. transitivity (length (filter (fun i => existsb (Z.eqb (i - 1)) b) a)).
  - f_equal. apply filter_ext. intros i. destruct (existsb (Z.eqb (i - 1)) b) eqn:E.
    + apply existsb_in. apply existsb_in in E. eapply Permutation_in; [symmetry; exact P|exact E].
    + destruct (existsb (Z.eqb (i - 1)) a) eqn:E'; [|reflexivity]. apply existsb_in in E'. exfalso.
      assert (existsb (Z.eqb (i - 1)) b = true) by (apply existsb_in; eapply Permutation_in; [exact P|exact E']). congruence.
  - apply Permutation_length. clear - P. set (f := fun i : Z => existsb (Z.eqb (i - 1)) b). clearbody f. induction P as [|x a b P IH|x y a|a b c P1 IH1 P2 IH2]; cbn [filter].
    + reflexivity.
    + destruct (f x); auto.
    + destruct (f x), (f y); auto. apply perm_swap.
    + now transitivity (filter f b).
Qed.

(** Ranges are used exactly when at least three toggles are saved; then every
    run is one range and only indices without neighbours are single toggles. *)
Theorem C26_runs : forall ops, NoDup ops ->
  ((joins ops <= 2)%nat -> snd (figure_out_ranges ops) = []) /\
  ((2 < joins ops)%nat ->
     (forall i, In i (fst (figure_out_ranges ops)) <-> alone (fun z => In z ops) i) /\
     (forall last start, In (last, start) (snd (figure_out_ranges ops)) <-> run_of (fun z => In z ops) last start)).
Proof.
  intros ops Hn. unfold figure_out_ranges. destruct (ranges_loop (sorted ops) [] [] 0) as [[ot otr] n] eqn:E.
  assert (L0 : looped [] [] [] 0).
  { split; [| |reflexivity|constructor|constructor].
    - intros i. split; [contradiction|intros (H & _); contradiction].
    - intros l a. split; [contradiction|intros (H1 & H2 & _); apply (H2 l); lia]. }
  pose proof (ranges_looped (sorted ops) [] [] [] 0 (up_sorted ops Hn) ltac:(intros i j []) L0 _ _ _ E) as [L1 L2 L3 _ _].
  cbn [app] in L1, L2, L3. rewrite (joins_perm _ _ (sorted_perm ops)) in L3. subst n.
  assert (HS : forall z, In z (sorted ops) <-> In z ops) by (intros z; split; apply Permutation_in; [|symmetry]; apply sorted_perm).
  destruct (Nat.leb_spec (joins ops) 2) as [Hl|Hl]; cbn [fst snd]; (split; intros H; [try reflexivity; lia|try lia]). split.
  - intros i. rewrite <- in_rev, L1. unfold alone. now rewrite !HS.
  - intros l a. rewrite <- in_rev, L2. unfold run_of. rewrite !HS. split; intros (A & B & C); (split; [exact A|]; split; [|exact C]); intros i Hi; apply HS; now apply B.
Qed.
Print Assumptions C26_runs.

(** The eleven toggles again: six of them follow another one. *)
Example C26_runs_nontrivial :
  joins [70; 3; 71; 68; 69; 5; 66; 72; 4; 100; 98] = 6%nat /\ joins [9; 8; 4; 3] = 2%nat /\
  run_of (fun z => In z [70; 3; 71; 68; 69; 5; 66; 72; 4; 100; 98]) 72 68 /\ alone (fun z => In z [70; 3; 71; 68; 69; 5; 66; 72; 4; 100; 98]) 66.
Proof.
  split; [reflexivity|]. split; [reflexivity|]. split.
  - split; [lia|]. split; [intros i Hi; assert (E : i = 68 \/ i = 69 \/ i = 70 \/ i = 71 \/ i = 72) by lia; cbn; lia|]. split; cbn; lia.
  - split; [cbn; lia|]. split; cbn; lia.
Qed.
