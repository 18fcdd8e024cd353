(** * http2: how large a frame can get, from the description in HTTP2_Choice.v. *)
From Coq Require Import String List NArith ZArith Bool Arith Lia.
From Verif Require Import PyBase NBits HTTP2_Model HTTP2_Int HTTP2_Sim HTTP2_Inv HTTP2_Spec HTTP2_More HTTP2_Choice.
Import ListNotations.
Open Scope N_scope.
Open Scope py_scope.

(** ** Specification *)

(** A string in full: its length in one to three octets, then its octets.  A header
    in full: one octet and two strings. *)
Definition string_cost (s : str) : N := (if lenN s <? 128 then 1 else if lenN s <? 16384 then 2 else 3) + lenN s.
Definition header_cost (h : header) : N := 1 + string_cost (fst h) + string_cost (snd h).
Definition total (hs : list header) : N := fold_right (fun h n => header_cost h + n) 0 hs.

(** How many different headers of one message are missing in the next. *)
Fixpoint distinct (hs : list header) : list header :=
  match hs with [] => [] | h :: r => if occurs h r then distinct r else h :: distinct r end.
Definition dropped (before hs : list header) : N := N.of_nat (length (distinct (filter (fun h => negb (occurs h hs)) before))).

(** ** Octets of integers and strings *)
Lemma digits_length k : forall f v s, write_digits f v = Ok s -> v < 128 ^ N.of_nat k -> (length s <= k)%nat.
Proof.
  induction k as [|k IH]; intros f v s E H.
  - change (128 ^ N.of_nat 0) with 1 in H. assert (v = 0) as -> by lia. destruct f; injection E as <-; cbn; lia.
  - destruct f as [|f]; cbn [write_digits] in E; destruct (v =? 0); try discriminate; try (injection E as <-; cbn; lia).
    destruct (pack_B _) as [b|] eqn:Eb; [|discriminate]. cbn [bind] in E. destruct (write_digits f (N.shiftr v 7)) as [r|] eqn:Er; [|discriminate]. cbn [bind] in E. injection E as <-.
    apply IH in Er.
    + rewrite app_length. unfold pack_B in Eb. destruct (_ <? _); [|discriminate]. injection Eb as <-. cbn [length]. lia.
    + rewrite N.shiftr_div_pow2. change (2 ^ 7) with 128. apply N.div_lt_upper_bound; [lia|]. rewrite <- N.pow_succ_r'. now replace (N.succ (N.of_nat k)) with (N.of_nat (S k)) by lia.
Qed.
Lemma pack_B_length b s : pack_B b = Ok s -> length s = 1%nat.
Proof. unfold pack_B. destruct (_ <? _); [|discriminate]. now intros [= <-]. Qed.
Lemma switch_length i s : write_integer 128 7 i = Ok s -> i < 255 -> lenN s <= 2.
Proof.
  intros E H. unfold write_integer in E. change (MAX_VALUES 7) with (Ok 127 : res N) in E. cbn [bind] in E. destruct (N.ltb_spec i 127).
  - change (7 <=? 8) with true in E. apply pack_B_length in E. unfold lenN. rewrite E. cbn. lia.
  - change (0 <? 7) with true in E. cbn match in E. destruct (pack_B (128 + 127)) as [b0|] eqn:E0; [|discriminate]. cbn [bind] in E. apply pack_B_length in E0.
    destruct (i - 127 =? 0); [change (pack_B 0) with (Ok [0] : res str) in E; cbn [bind] in E; injection E as <-; unfold lenN; rewrite app_length, E0; cbn; lia|].
    destruct (write_digits _ _) as [ds|] eqn:Ed; [|discriminate]. cbn [bind] in E. injection E as <-. apply (digits_length 1) in Ed; [|change (128 ^ N.of_nat 1) with 128; lia].
    unfold lenN. rewrite app_length, E0. lia.
Qed.
Lemma name_length b i s : write_integer b 5 i = Ok s -> i <= 255 -> lenN s <= (if i =? 0 then 1 else 3).
Proof.
  intros E H. unfold write_integer in E. change (MAX_VALUES 5) with (Ok 31 : res N) in E. cbn [bind] in E. destruct (N.ltb_spec i 31).
  - change (5 <=? 8) with true in E. apply pack_B_length in E. unfold lenN. rewrite E. destruct (i =? 0); cbn; lia.
  - replace (i =? 0) with false by (symmetry; apply N.eqb_neq; lia). change (0 <? 5) with true in E. cbn match in E. destruct (pack_B (b + 31)) as [b0|] eqn:E0; [|discriminate]. cbn [bind] in E. apply pack_B_length in E0.
    destruct (i - 31 =? 0); [change (pack_B 0) with (Ok [0] : res str) in E; cbn [bind] in E; injection E as <-; unfold lenN; rewrite app_length, E0; cbn; lia|].
    destruct (write_digits _ _) as [ds|] eqn:Ed; [|discriminate]. cbn [bind] in E. injection E as <-. apply (digits_length 2) in Ed; [|change (128 ^ N.of_nat 2) with 16384; lia].
    unfold lenN. rewrite app_length, E0. lia.
Qed.
Lemma string_length v s : write_literal_string v = Ok s -> lenN v <= lenN s /\ (lenN v < 65536 -> lenN s <= string_cost v).
Proof.
  unfold write_literal_string. intros E. destruct (write_integer 0 0 (lenN v)) as [b|] eqn:Eb; [|discriminate]. cbn [bind] in E. injection E as <-.
  assert (L : lenN (b ++ v) = lenN b + lenN v) by (unfold lenN; rewrite app_length; lia). rewrite L. split; [lia|]. intros H. unfold string_cost.
  enough (lenN b <= (if lenN v <? 128 then 1 else if lenN v <? 16384 then 2 else 3)) by lia. clear L.
  unfold write_integer in Eb. change (MAX_VALUES 0) with (Ok 0 : res N) in Eb. cbn [bind] in Eb. replace (lenN v <? 0) with false in Eb by (symmetry; apply N.ltb_ge; lia).
  change (0 <? 0) with false in Eb. cbn [bind app] in Eb. rewrite N.sub_0_r in Eb. destruct (lenN v =? 0) eqn:Z.
  - apply N.eqb_eq in Z. rewrite Z. change (pack_B 0) with (Ok [0] : res str) in Eb. cbn [bind] in Eb. injection Eb as <-. cbn. lia.
  - destruct (write_digits _ _) as [ds|] eqn:Ed; [|discriminate]. cbn [bind] in Eb. injection Eb as <-. unfold lenN at 1.
    destruct (N.ltb_spec (lenN v) 128); [apply (digits_length 1) in Ed; [lia|exact H0]|].
    destruct (N.ltb_spec (lenN v) 16384); [apply (digits_length 2) in Ed; [lia|exact H1]|].
    apply (digits_length 3) in Ed; [lia|]. change (128 ^ N.of_nat 3) with 2097152. lia.
Qed.

(** ** Octets of items *)
Definition costs (its : list item) (n : N) : Prop := forall s, items_octets its = Ok s -> lenN s < 65536 -> lenN s <= n.

Lemma lenN_app {A} (a b : list A) : lenN (a ++ b) = lenN a + lenN b.
Proof. unfold lenN. rewrite app_length. lia. Qed.
Lemma octets_app a b s : items_octets (a ++ b) = Ok s -> exists x y, items_octets a = Ok x /\ items_octets b = Ok y /\ s = x ++ y.
Proof.
  revert s. induction a as [|i a IH]; intros s E; [exists [], s; auto|]. cbn [app items_octets] in *. destruct (item_octets i) as [x|]; [|discriminate]. cbn [bind] in *.
  destruct (items_octets (a ++ b)) as [t|]; [|discriminate]. cbn [bind] in E. injection E as <-. destruct (IH t eq_refl) as (y & z & -> & -> & ->).
  exists (x ++ y), z. split; [reflexivity|]. split; [reflexivity|]. apply app_assoc.
Qed.
Lemma costs_nil n : costs [] n.
Proof. intros s [= <-] _. unfold lenN. cbn. lia. Qed.
Lemma costs_app a b n m : costs a n -> costs b m -> costs (a ++ b) (n + m).
Proof.
  intros Ha Hb s E L. destruct (octets_app _ _ _ E) as (x & y & Ex & Ey & ->). rewrite lenN_app in *. specialize (Ha x Ex ltac:(lia)). specialize (Hb y Ey ltac:(lia)). lia.
Qed.
Lemma costs_le a n m : costs a n -> n <= m -> costs a m.
Proof. intros H L s E Ls. specialize (H s E Ls). lia. Qed.
Lemma costs_switch i : (i < 255)%nat -> costs [Switch i] 2.
Proof.
  intros H s E _. cbn [items_octets item_octets] in E. destruct (write_integer 128 7 (N.of_nat i)) as [a|] eqn:Ea; [|discriminate]. cbn [bind] in E. injection E as <-. rewrite app_nil_r.
  eapply switch_length; [exact Ea|lia].
Qed.
Lemma string_cost_min s : 1 <= string_cost s.
Proof. unfold string_cost. destruct (lenN s <? 128), (lenN s <? 16384); lia. Qed.
Lemma string_cost_some s : s <> [] -> 2 <= string_cost s.
Proof. intros H. assert (1 <= lenN s) by (destruct s; [contradiction|unfold lenN; cbn [length]; lia]). unfold string_cost. destruct (lenN s <? 128), (lenN s <? 16384); lia. Qed.
Lemma costs_literal w r n m v : (length w <= 255)%nat -> n <> [] -> called w n m -> costs [Literal r m v] (header_cost (n, v)).
Proof.
  intros Hw Hn Hm s E L. cbn [items_octets item_octets] in E. unfold header_cost. cbn [fst snd].
  destruct Hm as [i x Hi _ _|_]; cbn match in E.
  - assert (i < length w)%nat by (apply nth_error_Some; congruence). destruct (write_integer _ 5 (N.of_nat i + 1)) as [a|] eqn:Ea; [|discriminate]. cbn [bind app] in E.
    destruct (write_literal_string v) as [c|] eqn:Ec; [|discriminate]. cbn [bind] in E. injection E as <-. rewrite app_nil_r in *. rewrite lenN_app in *.
    apply name_length in Ea; [|lia]. destruct (string_length _ _ Ec) as [L1 L2]. specialize (L2 ltac:(lia)). pose proof (string_cost_some n Hn). destruct (_ =? 0); lia.
  - destruct (write_integer _ 5 0) as [a|] eqn:Ea; [|discriminate]. cbn [bind] in E. destruct (write_literal_string n) as [b|] eqn:Eb; [|discriminate]. cbn [bind] in E.
    destruct (write_literal_string v) as [c|] eqn:Ec; [|discriminate]. cbn [bind] in E. injection E as <-. rewrite app_nil_r in *. rewrite !lenN_app in *.
    apply name_length in Ea; [|lia]. change (0 =? 0) with true in Ea. cbn match in Ea. destruct (string_length _ _ Ec) as [L1 L2]. destruct (string_length _ _ Eb) as [L3 L4]. specialize (L2 ltac:(lia)). specialize (L4 ltac:(lia)). lia.
Qed.

(** ** Tables *)
Lemma room_min h : (32 <= room h)%Z.
Proof. unfold room. lia. Qed.
Lemma held_app a b : held (a ++ b) = (held a + held b)%Z.
Proof. induction a as [|x a IH]; [reflexivity|]. cbn [app held fold_right]. fold (held (a ++ b)). fold (held a). lia. Qed.
Lemma held_length w : (32 * Z.of_nat (length w) <= held w)%Z.
Proof. induction w as [|x w IH]; [cbn; lia|]. cbn [length held fold_right]. fold (held w). pose proof (room_min (fst x)). lia. Qed.
Lemma held_nonneg w : (0 <= held w)%Z.
Proof. pose proof (held_length w). lia. Qed.

Definition rooms (hs : list header) : Z := fold_right (fun h z => (room h + z)%Z) 0%Z hs.
Lemma held_rooms w : held w = rooms (map fst w).
Proof. induction w as [|x w IH]; [reflexivity|]. cbn [held map fold_right rooms]. fold (held w). unfold rooms in IH. now rewrite IH. Qed.
Lemma rooms_app a b : rooms (a ++ b) = (rooms a + rooms b)%Z.
Proof. induction a as [|x a IH]; [reflexivity|]. cbn [app rooms fold_right]. fold (rooms (a ++ b)). fold (rooms a). lia. Qed.
Lemma rooms_incl a b : NoDup a -> incl a b -> (rooms a <= rooms b)%Z.
Proof.
  intros H. revert b. induction H as [|x a Hx _ IH]; intros b I.
  - rewrite <- (map_id b). clear. induction b as [|y b IHb]; [reflexivity|]. cbn in *. pose proof (room_min y). fold (rooms (map (fun x => x) b)) in *. unfold rooms in *. lia.
  - destruct (in_split x b (I x (or_introl eq_refl))) as (b1 & b2 & ->). specialize (IH (b1 ++ b2)). rewrite rooms_app in *. cbn [rooms fold_right]. fold (rooms a). fold (rooms b2).
    enough (rooms a <= rooms b1 + rooms b2)%Z by lia. apply IH. intros y Hy. specialize (I y (or_intror Hy)). apply in_app_or in I as [I|[->|I]]; [apply in_or_app; now left|contradiction|apply in_or_app; now right].
Qed.

Record Fine (w : table) (P : header -> Prop) : Prop := {
  fi_len : (length w <= 255)%nat;
  fi_nd : NoDup (map fst w);
  fi_on : forall h, In (h, true) w -> P h }.

Lemma known_nth w i h b : nth_error w i = Some (h, b) -> known w h.
Proof. intros H. apply nth_error_In in H. unfold known. apply in_map_iff. now exists (h, b). Qed.

Lemma map_fst_update i (w : table) : map fst (update_nth i (fun x => (fst x, true)) w) = map fst w.
Proof. revert i. induction w as [|x w IH]; intros [|i]; cbn [update_nth map fst]; try reflexivity. now rewrite IH. Qed.
Lemma in_update i (w : table) x : In x (update_nth i (fun x => (fst x, true)) w) -> In x w \/ exists b, nth_error w i = Some (fst x, b).
Proof.
  revert i. induction w as [|y w IH]; intros [|i]; cbn [update_nth]; [now left|now left| |].
  - intros [<-|H]; [|left; now right]. right. exists (snd y). destruct y. reflexivity.
  - intros [<-|H]; [left; now left|]. apply IH in H as [H|H]; [left; now right|now right].
Qed.

Section Worst.
  Context (max : Z) (Hmax : (0 <= max <= 8160)%Z).

  Lemma remembered_fine h w w' P : remembered max h w w' -> ~ known w h -> Fine w P -> P h -> Fine w' P.
  Proof.
    intros (old & rest & -> & _ & [[L ->]|(-> & _ & ->)]) K F Ph; [|split; [cbn; lia|constructor|intros ? []]].
    destruct F as [F1 F2 F3]. unfold known in K. rewrite map_app in *. split.
    - pose proof (held_length (rest ++ [(h, true)])) as Hl. rewrite held_app in Hl. cbn [held fold_right fst] in Hl. lia.
    - rewrite map_app. cbn [map fst]. apply NoDup_rev in F2. rewrite rev_app_distr in F2. rewrite <- (rev_involutive (map fst rest ++ [h])). apply NoDup_rev.
      rewrite rev_app_distr. cbn [rev app]. constructor; [intros I; apply in_rev in I; apply K, in_or_app; now right|].
      clear -F2. induction (rev (map fst rest)) as [|x l IH]; [constructor|]. cbn [app] in F2. inversion F2; subst. constructor; [intros I; apply H1, in_or_app; now left|auto].
    - intros x Hx. apply in_app_or in Hx as [Hx|[[= ->]|[]]]; [apply F3, in_or_app; now right|exact Ph].
  Qed.

  Lemma sent_fine w h its w' P : sent max w h its w' -> fst h <> [] -> Fine w P -> P h -> costs its (header_cost h) /\ Fine w' P.
  Proof.
    intros S Hn F Ph. assert (Hl := fi_len _ _ F). assert (Hc : 4 <= header_cost h).
    { unfold header_cost. pose proof (string_cost_some _ Hn). pose proof (string_cost_min (snd h)). lia. }
    destruct S as [i h Hi|i h Hi|v n K C|n v m w' K Np C R].
    - assert (i < length w)%nat by (apply nth_error_Some; congruence). split; [eapply costs_le; [apply costs_switch; lia|lia]|]. destruct F as [F1 F2 F3]. split.
      + rewrite <- (map_length fst), map_fst_update, map_length. exact F1.
      + now rewrite map_fst_update.
      + intros x Hx. apply in_update in Hx as [Hx|[b Hx]]; [now apply F3|]. cbn [fst] in Hx. congruence.
    - assert (i < length w)%nat by (apply nth_error_Some; congruence). split; [|exact F]. change [Switch i; Switch i] with ([Switch i] ++ [Switch i]). eapply costs_le; [apply costs_app; apply costs_switch; lia|lia].
    - split; [|exact F]. now apply (costs_literal w).
    - split; [now apply (costs_literal w)|]. eapply remembered_fine; eauto.
  Qed.

  Lemma all_sent_fine w hs its w' P : all_sent max w hs its w' -> Forall (fun h => fst h <> [] /\ P h) hs -> Fine w P -> costs its (total hs) /\ Fine w' P.
  Proof.
    intros A. induction A as [w|w h its w1 hs its' w2 S A IH]; intros Hh F; [split; [apply costs_nil|exact F]|]. inversion Hh as [|? ? [Hn Ph] Hh']; subst.
    destruct (sent_fine _ _ _ _ _ S Hn F Ph) as [C1 F1]. destruct (IH Hh' F1) as [C2 F2]. split; [now apply costs_app|exact F2].
  Qed.

  (** *** Headers that were lost are sent again once at most *)
  Lemma sent_path_lost w h its w' v : sent max w h its w' -> known w' (lit ":path", v) -> known w (lit ":path", v).
  Proof.
    intros S K. destruct S as [i h Hi|i h Hi|x n _ C|n x m w' _ Np C (old & rest & -> & _ & [[_ ->]|(_ & _ & ->)])]; [|exact K|exact K| |destruct K].
    - unfold known in *. now rewrite map_fst_update in K.
    - unfold known in *. rewrite map_app in K. apply in_app_or in K as [K|[K|[]]]; [|cbn [fst] in K; congruence]. rewrite map_app. apply in_or_app. now right.
  Qed.
  Lemma restored_path w hs its w' v : restored max w hs its w' -> known w' (lit ":path", v) -> known w (lit ":path", v).
  Proof.
    intros R. induction R as [w|w h hs its w' _ _ IH|w h its w1 hs its' w2 _ S _ IH]; intros K; [exact K|auto|]. eapply sent_path_lost; [exact S|auto].
  Qed.
  Lemma settled_path kept w its w' v : settled max kept w its w' -> In (lit ":path", v) kept -> known w (lit ":path", v).
  Proof.
    intros S I. induction S as [w H|w its w1 its' w2 R _ _ IH]; [now apply H|]. eapply restored_path; eauto.
  Qed.
  Lemma held_update i w : held (update_nth i (fun x => (fst x, true)) w) = held w.
  Proof. now rewrite !held_rooms, map_fst_update. Qed.
  Lemma remembered_holds h w w' : remembered max h w w' -> (held w' <= max)%Z.
  Proof. intros (old & rest & _ & _ & [[L ->]|(_ & _ & ->)]); [|cbn; lia]. rewrite held_app. cbn [held fold_right fst]. lia. Qed.
  Lemma sent_holds w h its w' : sent max w h its w' -> (held w <= max)%Z -> (held w' <= max)%Z.
  Proof. intros S. destruct S; try rewrite held_update; auto. intros _. eapply remembered_holds; eauto. Qed.
  Lemma restored_holds w hs its w' : restored max w hs its w' -> (held w <= max)%Z -> (held w' <= max)%Z.
  Proof. intros R. induction R; auto. intros Hh. apply IHR. eapply sent_holds; eauto. Qed.
  Lemma sent_lost w h its w' : sent max w h its w' -> ~ known w h -> fst h <> lit ":path" -> remembered max h w w' /\ length its = 1%nat.
  Proof. intros S K N. destruct S; try (exfalso; apply K; eapply known_nth; eassumption); [exfalso; now apply N|auto]. Qed.
  Lemma restored_some w hs its w' : restored max w hs its w' -> its <> [] -> (forall v, In (lit ":path", v) hs -> known w' (lit ":path", v)) -> (held w' <= max)%Z.
  Proof.
    intros R. induction R as [w|w h hs its w' _ R IH|w h its w1 hs its' w2 K S R IH]; intros Ni Hp; [contradiction|apply IH; [exact Ni|intros v I; apply Hp; now right]|].
    eapply restored_holds; [exact R|]. destruct (list_eq_dec N.eq_dec (fst h) (lit ":path")) as [E|E].
    - exfalso. apply K. destruct h as [n v]. cbn [fst] in E. subst n. eapply sent_path_lost; [exact S|]. eapply restored_path; [exact R|]. apply Hp. now left.
    - eapply remembered_holds. now apply (sent_lost _ _ _ _ S).
  Qed.
  Lemma settled_holds kept w its w' : settled max kept w its w' -> (held w <= max)%Z -> (held w' <= max)%Z.
  Proof. intros S. induction S; auto. intros Hh. apply IHS. eapply restored_holds; eauto. Qed.
  Lemma settled_known kept w its w' : settled max kept w its w' -> incl kept (map fst w').
  Proof. intros S. induction S; [intros h I; now apply H|assumption]. Qed.
  Lemma settled_room kept w its w' : NoDup kept -> settled max kept w its w' -> its = [] \/ (rooms kept <= max)%Z.
  Proof.
    intros Nk S. destruct S as [w H|w its w1 its' w2 R Ni S]; [now left|right].
    assert (H1 : (held w1 <= max)%Z) by (eapply restored_some; [exact R|exact Ni|]; intros v I; eapply settled_path; eauto).
    pose proof (settled_holds _ _ _ _ S H1) as H2. pose proof (settled_known _ _ _ _ S) as I2. rewrite held_rooms in H2. pose proof (rooms_incl _ _ Nk I2). lia.
  Qed.

  Definition tail_of (w : table) (R : list header) : Prop := exists old, map fst w = old ++ R.

  Lemma split_tail {A} (a b c d : list A) : a ++ b = c ++ d -> (length b >= length d)%nat -> exists e, b = e ++ d.
  Proof.
    revert c. induction a as [|x a IH]; intros c E L; [exists c; exact E|]. destruct c as [|y c].
    - cbn [app] in E. apply (f_equal (@length A)) in E. cbn [length] in E. rewrite app_length in E. lia.
    - injection E as _ E. now apply (IH c).
  Qed.
  Lemma split_tail' {A} (a b c d : list A) : a ++ b = c ++ d -> (length b < length d)%nat -> exists e x, a = c ++ e ++ [x] /\ d = (e ++ [x]) ++ b.
  Proof.
    revert c. induction a as [|x a IH]; intros c E L.
    - cbn [app] in E. subst b. rewrite app_length in L. lia.
    - destruct c as [|y c].
      + cbn [app] in *. destruct (exists_last (l := x :: a)) as (e & z & Ez); [discriminate|]. exists e, z. rewrite <- Ez. split; [reflexivity|]. now rewrite <- E.
      + injection E as -> E. destruct (IH c E L) as (e & z & -> & ->). exists e, z. split; reflexivity.
  Qed.

  Lemma remembered_tail kept h w w' R : (rooms kept <= max)%Z -> incl (R ++ [h]) kept -> NoDup (R ++ [h]) -> tail_of w R -> remembered max h w w' -> tail_of w' (R ++ [h]).
  Proof.
    intros Hk Hi Hn [o Ho] (old & rest & -> & Hold & Hr). pose proof (rooms_incl _ _ Hn Hi) as Hs. rewrite rooms_app in Hs. cbn [rooms fold_right] in Hs.
    assert (HR : (0 <= rooms R)%Z) by (clear; induction R as [|x R IH]; [reflexivity|]; cbn [rooms fold_right]; fold (rooms R); pose proof (room_min x); lia).
    assert (T : exists e, map fst rest = e ++ R).
    { rewrite map_app in Ho. destruct (le_lt_dec (length R) (length (map fst rest))) as [L|L]; [eapply split_tail; [exact Ho|exact L]|].
      destruct (split_tail' _ _ _ _ Ho L) as (e & x & E1 & E2). exfalso.
      destruct (exists_last (l := old)) as (a & y & Ey). { intros ->. cbn in E1. destruct o, e; discriminate. }
      specialize (Hold a y [] Ey). cbn [app held fold_right] in Hold. fold (held rest) in Hold. rewrite held_rooms in Hold.
      assert (fst y = x). { subst old. rewrite map_app in E1. cbn [map] in E1. rewrite app_assoc in E1. now apply app_inj_tail in E1. }
      assert (0 <= rooms e)%Z by (clear; induction e as [|z e IH]; [reflexivity|]; cbn [rooms fold_right]; fold (rooms e); pose proof (room_min z); lia).
      rewrite E2, !rooms_app in Hs. cbn [rooms fold_right] in Hs. subst x. lia. }
    destruct T as [e He]. destruct Hr as [[_ ->]|(_ & Hm & _)]; [|lia]. exists e. rewrite map_app, He. cbn [map fst]. now rewrite <- app_assoc.
  Qed.

  Lemma tail_known w R h : tail_of w R -> In h R -> known w h.
  Proof. intros [o E] I. unfold known. rewrite E. apply in_or_app. now right. Qed.
  Lemma total_app a b : total (a ++ b) = total a + total b.
  Proof. induction a as [|x a IH]; [reflexivity|]. cbn [app total fold_right]. fold (total (a ++ b)). fold (total a). lia. Qed.

  Lemma restored_once kept P : (rooms kept <= max)%Z -> Forall (fun h => fst h <> [] /\ P h) kept -> forall w hs its w', restored max w hs its w' ->
    incl hs kept -> (forall v, In (lit ":path", v) kept -> known w' (lit ":path", v)) ->
    forall R, NoDup R -> incl R kept -> tail_of w R -> Fine w P ->
    exists R', NoDup (R ++ R') /\ incl R' kept /\ tail_of w' (R ++ R') /\ (costs its (total R') /\ length its = length R') /\ Fine w' P.
  Proof.
    intros Hk Hp w hs its w' Re. induction Re as [w|w h hs its w' _ Re IH|w h its w1 hs its' w2 K S Re IH]; intros Hi Hpath R Nd Hr T F.
    - exists []. rewrite app_nil_r. repeat (split; [first [assumption|split; [apply costs_nil|reflexivity]|intros ? []]|]); assumption.
    - apply IH; auto. intros x Hx. apply Hi. now right.
    - assert (Hh : In h kept) by (apply Hi; now left). rewrite Forall_forall in Hp. destruct (Hp h Hh) as [Hn Ph].
      destruct (sent_fine _ _ _ _ _ S Hn F Ph) as [C1 F1].
      assert (Nh : NoDup (R ++ [h])).
      { apply NoDup_rev in Nd. rewrite <- (rev_involutive (R ++ [h])). apply NoDup_rev. rewrite rev_app_distr. constructor; [|exact Nd]. intros I. apply in_rev in I. apply K. eapply tail_known; eauto. }
      assert (Ih : incl (R ++ [h]) kept) by (intros x Hx; apply in_app_or in Hx as [Hx|[->|[]]]; auto).
      assert (Sl : remembered max h w w1 /\ length its = 1%nat).
      { apply (sent_lost _ _ _ _ S K). intros E. apply K. destruct h as [n v]. cbn [fst] in E. subst n. eapply sent_path_lost; [exact S|]. eapply restored_path; [exact Re|]. now apply Hpath. }
      destruct Sl as [Rm Li]. assert (T1 : tail_of w1 (R ++ [h])) by (eapply remembered_tail; eauto).
      destruct (IH ltac:(intros x Hx; apply Hi; now right) Hpath (R ++ [h]) Nh Ih T1 F1) as (R' & A1 & A2 & A3 & [A4 A4l] & A5).
      rewrite <- app_assoc in *. exists (h :: R'). split; [exact A1|]. split; [intros x [->|Hx]; auto|]. split; [exact A3|]. split; [|exact A5].
      change (total (h :: R')) with (header_cost h + total R'). split; [now apply costs_app|]. rewrite app_length, Li, A4l. reflexivity.
  Qed.

  Lemma settled_once kept P : (rooms kept <= max)%Z -> Forall (fun h => fst h <> [] /\ P h) kept -> forall w its w', settled max kept w its w' ->
    forall R, NoDup R -> incl R kept -> tail_of w R -> Fine w P ->
    exists R', NoDup (R ++ R') /\ incl R' kept /\ (costs its (total R') /\ length its = length R') /\ Fine w' P.
  Proof.
    intros Hk Hp w its w' S. induction S as [w H|w its w1 its' w2 Re _ S IH]; intros R Nd Hr T F.
    - exists []. rewrite app_nil_r. repeat (split; [first [assumption|split; [apply costs_nil|reflexivity]|intros ? []]|]); assumption.
    - destruct (restored_once kept P Hk Hp _ _ _ _ Re (incl_refl _) ltac:(intros v I; eapply settled_path; eauto) R Nd Hr T F) as (R1 & A1 & A2 & A3 & [A4 A4l] & A5).
      destruct (IH (R ++ R1) A1 ltac:(intros x Hx; apply in_app_or in Hx as [Hx|Hx]; auto) A3 A5) as (R2 & B1 & B2 & [B3 B3l] & B4).
      exists (R1 ++ R2). rewrite app_assoc. split; [exact B1|]. split; [intros x Hx; apply in_app_or in Hx as [Hx|Hx]; auto|]. split; [|exact B4]. rewrite total_app. split; [now apply costs_app|]. now rewrite !app_length, A4l, B3l.
  Qed.

  Lemma total_incl a b : NoDup a -> incl a b -> total a <= total b.
  Proof.
    intros H. revert b. induction H as [|x a Hx _ IH]; intros b I; [cbn; lia|].
    destruct (in_split x b (I x (or_introl eq_refl))) as (b1 & b2 & ->). specialize (IH (b1 ++ b2)). rewrite total_app in *. cbn [total fold_right]. fold (total a). fold (total b2).
    enough (total a <= total b1 + total b2) by lia. apply IH. intros y Hy. specialize (I y (or_intror Hy)). apply in_app_or in I as [I|[->|I]]; [apply in_or_app; now left|contradiction|apply in_or_app; now right].
  Qed.
  Lemma settled_nothing kept w its w' : settled max kept w its w' -> its = [] -> w = w'.
  Proof. intros S E. destruct S as [w _|w its w1 its' w2 _ N _]; [reflexivity|]. apply app_eq_nil in E as [E _]. destruct (N E). Qed.
  Lemma settled_fine kept w its w' P : NoDup kept -> Forall (fun h => fst h <> [] /\ P h) kept -> settled max kept w its w' -> Fine w P -> costs its (total kept) /\ Fine w' P.
  Proof.
    intros Nk Hp S F. destruct (settled_room _ _ _ _ Nk S) as [->|Hk].
    - split; [apply costs_nil|]. now rewrite <- (settled_nothing _ _ _ _ S eq_refl).
    - destruct (settled_once kept P Hk Hp _ _ _ S [] ltac:(constructor) ltac:(intros ? []) ltac:(exists (map fst w); now rewrite app_nil_r) F) as (R & N1 & I1 & [C _] & F'). split; [|exact F'].
      eapply costs_le; [exact C|]. now apply total_incl.
  Qed.

  (** *** Messages *)
  Lemma unsaid_facts w : forall hs before, NoDup (unsaid w before hs) /\ incl (unsaid w before hs) hs /\ (forall h, In h before -> ~ In h (unsaid w before hs)).
  Proof.
    induction hs as [|h hs IH]; intros before; [split; [constructor|split; [intros ? []|intros ? _ []]]|]. cbn [unsaid].
    destruct (IH (h :: before)) as (A & B & C). destruct (on w h && negb (occurs h before)) eqn:E.
    - apply andb_true_iff in E as [_ E]. apply negb_true_iff in E. split; [|split].
      + constructor; [apply C; now left|exact A].
      + intros x [->|Hx]; [now left|right; now apply B].
      + intros x Hx [->|I]; [|apply (C x); [now right|exact I]]. apply occurs_in in Hx. congruence.
    - split; [exact A|]. split; [intros x Hx; right; now apply B|]. intros x Hx. apply C. now right.
  Qed.
  Lemma said_unsaid w : forall hs before, incl (said w before hs) hs /\ total (said w before hs) + total (unsaid w before hs) = total hs.
  Proof.
    induction hs as [|h hs IH]; intros before; [split; [intros ? []|reflexivity]|]. cbn [said unsaid]. destruct (IH (h :: before)) as [A B].
    change (total (h :: hs)) with (header_cost h + total hs). destruct (on w h && negb (occurs h before)).
    - split; [intros x Hx; right; now apply A|]. change (total (h :: unsaid w (h :: before) hs)) with (header_cost h + total (unsaid w (h :: before) hs)). lia.
    - split; [intros x [->|Hx]; [now left|right; now apply A]|]. change (total (h :: said w (h :: before) hs)) with (header_cost h + total (said w (h :: before) hs)). lia.
  Qed.
  Lemma ended_facts hs w : forall i, length (ended i w hs) = length (filter (fun x => snd x && negb (occurs (fst x) hs)) w) /\
    Forall (fun j => (j < i + length w)%nat) (ended i w hs).
  Proof.
    induction w as [|[h b] w IH]; intros i; [split; [reflexivity|constructor]|]. cbn [ended filter fst snd length]. destruct (IH (S i)) as [A B].
    assert (B' : Forall (fun j => (j < i + S (length w))%nat) (ended (S i) w hs)) by (eapply Forall_impl; [|exact B]; cbv beta; intros; lia).
    destruct (b && negb (occurs h hs)); [|now split]. split; [cbn [length]; now rewrite A|]. constructor; [lia|exact B'].
  Qed.
  Lemma distinct_in hs h : In h hs -> In h (distinct hs).
  Proof.
    induction hs as [|x hs IH]; [intros []|]. cbn [distinct]. intros [->|H].
    - destruct (occurs h hs) eqn:E; [apply IH, occurs_in, E|now left].
    - destruct (occurs x hs); [auto|right; auto].
  Qed.
  Lemma switches_cost l : Forall (fun j => (j < 255)%nat) l -> costs (map Switch l) (2 * N.of_nat (length l)).
  Proof.
    intros H. induction H as [|i l Hi _ IH]; [apply costs_nil|]. change (map Switch (i :: l)) with ([Switch i] ++ map Switch l). eapply costs_le; [apply costs_app; [now apply costs_switch|exact IH]|]. cbn [length]. lia.
  Qed.

  Lemma message_fine before w hs its w' : Forall (fun h => fst h <> []) hs -> Fine w (fun h => In h before) -> message max w hs its w' ->
    costs its (2 * dropped before hs + total hs) /\ Fine w' (fun h => In h hs).
  Proof.
    intros Hn F M. destruct M as [a w1 b w2 A S]. destruct (unsaid_facts w hs []) as (U1 & U2 & _). destruct (said_unsaid w hs []) as (V1 & V2).
    assert (F0 : Fine (map (fun x => (fst x, snd x && occurs (fst x) hs)) w) (fun h => In h hs)).
    { destruct F as [F1 F2 F3]. split; [now rewrite map_length|now rewrite map_map|]. intros h Hh. apply in_map_iff in Hh as ([g b'] & E & _). cbn [fst snd] in E. injection E as -> E. apply andb_true_iff in E as [_ E]. now apply occurs_in. }
    rewrite Forall_forall in Hn.
    destruct (all_sent_fine _ _ _ _ (fun h => In h hs) A) as [C1 F1]; [apply Forall_forall; intros h Hh; split; [apply Hn|]; now apply V1|exact F0|].
    destruct (settled_fine _ _ _ _ (fun h => In h hs) U1 ltac:(apply Forall_forall; intros h Hh; split; [apply Hn|]; now apply U2) S F1) as [C2 F2].
    split; [|exact F2]. rewrite <- V2. apply costs_app; [|now apply costs_app].
    destruct (ended_facts hs w 0) as [E1 E2]. eapply costs_le; [apply switches_cost; eapply Forall_impl; [|exact E2]; cbv beta; intros; pose proof (fi_len _ _ F); lia|].
    enough (length (ended 0 w hs) <= length (distinct (filter (fun h => negb (occurs h hs)) before)))%nat by (unfold dropped; lia).
    rewrite E1, <- (map_length fst). apply NoDup_incl_length.
    - pose proof (fi_nd _ _ F) as Nd. clear -Nd. induction w as [|x w IH]; [constructor|]. cbn [map filter] in *. inversion Nd; subst. destruct (snd x && _); [|auto]. cbn [map]. constructor; [|auto].
      intros I. apply H1. apply in_map_iff in I as (y & <- & Hy). apply filter_In in Hy as [Hy _]. now apply in_map.
    - intros h Hh. apply distinct_in. apply in_map_iff in Hh as ([g b'] & E & Hx). cbn [fst] in E. subst g. apply filter_In in Hx as [Hx Hb]. cbn [fst snd] in Hb. apply andb_true_iff in Hb as [-> Hb]. apply filter_In. split; [now apply (fi_on _ _ F)|exact Hb].
  Qed.

  Lemma conversation_fine w ms fs w' : conversation max w ms fs w' -> forall before, Forall (Forall (fun h => fst h <> [])) ms -> Fine w (fun h => In h before) ->
    Forall2 (fun p f => lenN f <= 8 + total (snd p) + 2 * dropped (fst p) (snd p)) (combine (before :: ms) ms) fs.
  Proof.
    intros C. induction C as [w|w hs its s w1 len ms fs w2 M O L C IH]; intros before Hn F; [constructor|]. inversion Hn as [|? ? Hh Hn']; subst.
    destruct (message_fine _ _ _ _ _ Hh F M) as [Hc F1]. cbn [combine]. constructor; [|now apply IH]. cbn [fst snd].
    unfold pack_H in L. destruct (lenN s <? 65536) eqn:E; [|discriminate]. apply N.ltb_lt in E. specialize (Hc s O E). rewrite !lenN_app.
    assert (lenN len = 2) by (injection L as <-; reflexivity). change (lenN [0; 0; 0; 0; 0; 0]) with 6. lia.
  Qed.
End Worst.

Lemma start_fine r : Fine (at_start r) (fun h => In h []).
Proof.
  destruct (shown_start r) as [H1 H2 _]. split.
  - destruct r; vm_compute; repeat constructor.
  - rewrite <- H1, map_map. exact H2.
  - intros h Hh. unfold at_start in Hh. apply in_map_iff in Hh as (x & E & _). discriminate.
Qed.
