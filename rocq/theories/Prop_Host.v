(** * Property C121: which hosts share a header group in delta and delta2. *)
From Coq Require Import String List NArith ZArith Bool Arith Lia ZifyN ZifyNat Permutation.
From Verif Require Import PyBase PyStr Host_Model.
Import ListNotations.
Open Scope N_scope.

(** ** Specification *)

(** The labels of a host name are what stands between its full stops. *)
Definition dot : N := 46.
Definition dotted (labels : list str) : str := join [dot] labels.
Definition label (l : str) : Prop := ~ In dot l.
(** Letters, hyphens, 0 and 1. *)
Definition plain_char (c : N) : Prop := c = 48 \/ c = 49 \/ 97 <= c <= 122 \/ 65 <= c <= 90 \/ c = 45.
Definition plain (l : str) : Prop := Forall plain_char l.
(** Empty, or ending with some other character. *)
Definition odd_end (h : str) : Prop := h = [] \/ exists r c, h = r ++ [c] /\ ~ plain_char c.

(** What a host name with these labels is shortened to.  Names with one or two labels stay
    as they are.  Otherwise the plain end of the first label goes, with the plain labels that
    follow; what goes reaches up to the last two labels or up to a label that is not plain.
    That label and the next one stay, without the full stop before them.  The rest is dealt
    with as if it had an empty first label. *)
Inductive shortened : list str -> str -> Prop :=
| short_few labels : (length labels <= 2)%nat -> shortened labels (dotted labels)
| short_last h p qs a b : odd_end h -> plain p -> Forall plain qs ->
    shortened ((h ++ p) :: qs ++ [a; b]) (h ++ dotted [a; b])
| short_more h p qs a b r out : odd_end h -> plain p -> Forall plain qs -> ~ plain a -> r <> [] -> shortened ([] :: r) out ->
    shortened ((h ++ p) :: qs ++ a :: b :: r) (h ++ dotted [a; b] ++ out).

(** ** Proofs *)

Lemma class_spec c : in_class c = true <-> plain_char c \/ c = dot.
Proof. unfold in_class, plain_char, dot. rewrite !orb_true_iff, !andb_true_iff, !N.leb_le, !N.eqb_eq. lia. Qed.
Lemma plain_not_dot c : plain_char c -> c <> dot.
Proof. unfold plain_char, dot. lia. Qed.
Lemma plain_dec c : {plain_char c} + {~ plain_char c}.
Proof.
  destruct (in_class c) eqn:E; [destruct (N.eq_dec c dot) as [->|D]|].
  - right. intros C. now apply plain_not_dot in C.
  - left. apply class_spec in E. tauto.
  - right. intros C. assert (X : in_class c = true) by (apply class_spec; now left). congruence.
Qed.
Lemma plain_label l : plain l -> label l.
Proof. intros H C. rewrite (Forall_forall plain_char l) in H. apply H, plain_not_dot in C. congruence. Qed.

(** The second half of the pattern, behind the first full stop. *)
Definition second (s : str) : option (str * str) :=
  star no_dot (fun a s => stop (fun s => star no_dot (fun b s => Some (a ++ 46 :: b, s)) [] s) s) [] s.
Definition first (s : str) : option (str * str) := stop second s.

Lemma star_label {A} (k : str -> str -> option A) l s x : label l -> (s = [] \/ exists r, s = dot :: r) -> forall t, k (t ++ l) s = Some x -> star no_dot k t (l ++ s) = Some x.
Proof.
  intros Hl Hs. induction l as [|c l IH]; intros t E.
  - rewrite app_nil_r in E. cbn [app]. destruct Hs as [->|(r & ->)]; cbn [star]; [exact E|]. unfold no_dot, dot. rewrite N.eqb_refl. exact E.
  - cbn [app star]. assert (no_dot c = true) as ->. { unfold no_dot. rewrite negb_true_iff, N.eqb_neq. intros ->. apply Hl. now left. }
    rewrite IH; [reflexivity| |].
    + intros C. apply Hl. now right.
    + now rewrite <- app_assoc.
Qed.
Lemma second_one l : label l -> second l = None.
Proof.
  unfold second. match goal with |- star no_dot ?k _ _ = _ -> _ => set (K := k) | |- _ -> star no_dot ?k _ _ = _ => set (K := k) end.
  generalize (@nil N). induction l as [|c l IH]; intros t Hl; cbn [star]; [reflexivity|].
  assert (Hc : (c =? 46) = false). { apply N.eqb_neq. intros ->. apply Hl. now left. }
  unfold no_dot at 1. rewrite Hc. cbn [negb]. rewrite IH by (intros C; apply Hl; now right). unfold K. cbn [stop]. now rewrite Hc.
Qed.
Lemma second_two a b s : label a -> label b -> (s = [] \/ exists r, s = dot :: r) -> second (a ++ dot :: b ++ s) = Some (a ++ dot :: b, s).
Proof.
  intros Ha Hb Hs. unfold second. apply star_label; [exact Ha|right; eauto|]. cbn [stop app]. unfold dot at 1. rewrite N.eqb_refl.
  apply star_label; [exact Hb|exact Hs|reflexivity].
Qed.

Lemma star_class (s : str) : forall t u, star in_class (fun _ s => first s) t s = star in_class (fun _ s => first s) u s.
Proof. induction s as [|c r IH]; intros t u; cbn [star]; [reflexivity|]. destruct (in_class c); [|reflexivity]. now rewrite (IH _ (u ++ [c])). Qed.
Lemma match_cons c r : host_match (c :: r) = if in_class c then match host_match r with Some x => Some x | None => first (c :: r) end else first (c :: r).
Proof.
  assert (E : forall s, host_match s = star in_class (fun _ s => first s) [] s) by reflexivity. rewrite !E. cbn [star app]. now rewrite (star_class r [c] []).
Qed.
Lemma match_nil : host_match [] = None. Proof. reflexivity. Qed.
Lemma match_plain p s : plain p -> host_match (p ++ s) = host_match s.
Proof.
  induction 1 as [|c p Hc Hp IH]; [reflexivity|]. cbn [app]. rewrite match_cons, IH. rewrite (proj2 (class_spec c) (or_introl Hc)).
  destruct (host_match s); [reflexivity|]. unfold first. cbn [stop]. destruct (N.eqb_spec c 46); [|reflexivity]. now apply plain_not_dot in Hc.
Qed.
Lemma match_odd c s : ~ plain_char c -> c <> dot -> host_match (c :: s) = None.
Proof.
  intros Hc Hd. rewrite match_cons. destruct (in_class c) eqn:E; [apply class_spec in E; tauto|]. unfold first. cbn [stop]. destruct (N.eqb_spec c 46) as [e|]; [now destruct (Hd e)|reflexivity].
Qed.
Lemma match_not_plain l s : label l -> ~ plain l -> host_match (l ++ s) = None.
Proof.
  induction l as [|c l IH]; intros Hl Hp; [exfalso; apply Hp; constructor|]. cbn [app]. destruct (plain_dec c) as [Hc|Hc].
  - change (c :: l ++ s) with ([c] ++ (l ++ s)). rewrite match_plain by now constructor. apply IH; [intros C; apply Hl; now right|]. intros C. apply Hp. now constructor.
  - apply match_odd; [exact Hc|]. intros ->. apply Hl. now left.
Qed.
Lemma match_label l : label l -> host_match l = None.
Proof.
  intros Hl. rewrite <- (app_nil_r l). destruct (Forall_dec plain_char plain_dec l) as [P|P]; [now rewrite match_plain|now apply match_not_plain].
Qed.
Lemma match_dot s : host_match (dot :: s) = match host_match s with Some x => Some x | None => second s end.
Proof. rewrite match_cons. reflexivity. Qed.

Lemma dotted_cons l ls : ls <> [] -> dotted (l :: ls) = l ++ dot :: dotted ls.
Proof. intros H. unfold dotted. destruct ls as [|m ls]; [congruence|reflexivity]. Qed.
Lemma match_few ls : Forall label ls -> (length ls <= 2)%nat -> host_match (dotted ls) = None.
Proof.
  intros HF HL. destruct ls as [|a [|b [|? ?]]]; cbn [length] in HL; try lia; [reflexivity| |].
  - inversion HF. now apply match_label.
  - inversion HF as [|? ? Ha HF']; subst. inversion HF' as [|? ? Hb _]; subst. change (dotted [a; b]) with (a ++ dot :: b).
    destruct (Forall_dec plain_char plain_dec a) as [P|P]; [|now apply match_not_plain].
    rewrite match_plain by exact P. rewrite match_dot, match_label by exact Hb. now apply second_one.
Qed.
(** What is left behind a match. *)
Definition behind (r : list str) : str := match r with [] => [] | _ => dot :: dotted r end.
Lemma behind_case r : behind r = [] \/ exists x, behind r = dot :: x.
Proof. destruct r; [now left|right; now eexists]. Qed.
Lemma dotted_two a b r : dotted (a :: b :: r) = a ++ dot :: b ++ behind r.
Proof. rewrite dotted_cons by discriminate. f_equal. f_equal. destruct r as [|c r]; [symmetry; apply app_nil_r|]. rewrite dotted_cons by discriminate. reflexivity. Qed.
Lemma match_more qs a b r : Forall plain qs -> Forall label (a :: b :: r) -> (~ plain a \/ r = []) -> forall p, plain p ->
  host_match (dotted (p :: qs ++ a :: b :: r)) = Some (dotted [a; b], behind r).
Proof.
  intros Hq HF Hc. inversion HF as [|? ? Ha HF']; subst. inversion HF' as [|? ? Hb _]; subst. induction Hq as [|q qs Hq Hqs IH]; intros p Hp.
  - cbn [app]. rewrite dotted_cons by discriminate. rewrite match_plain, match_dot by exact Hp.
    assert (host_match (dotted (a :: b :: r)) = None) as ->.
    { destruct Hc as [Hc| ->]; [rewrite dotted_cons by discriminate; now apply match_not_plain|]. apply match_few; [now repeat constructor|]. cbn [length]. lia. }
    rewrite dotted_two. now rewrite second_two by (try assumption; apply behind_case).
  - cbn [app]. rewrite dotted_cons by discriminate. rewrite match_plain, match_dot by exact Hp. now rewrite IH by exact Hq.
Qed.

Lemma sub_keep h s : odd_end h -> label h -> (forall x y, h = x ++ y -> y <> [] -> host_match (y ++ s) = None) -> forall f, host_sub (length h + f) (h ++ s) = h ++ host_sub f s.
Proof.
  intros _ _ H f. induction h as [|c h IH]; [reflexivity|]. cbn [length Nat.add host_sub]. rewrite (H [] (c :: h) eq_refl ltac:(discriminate)). cbn [app]. rewrite IH; [reflexivity|].
  intros x y E Hy. apply (H (c :: x) y); [cbn; congruence|exact Hy].
Qed.
Lemma odd_tail h x y s : odd_end h -> label h -> h = x ++ y -> y <> [] -> host_match (y ++ s) = None.
Proof.
  intros [->|(r & c & -> & Hc)] Hl E Hy; [symmetry in E; apply app_eq_nil in E; tauto|]. apply match_not_plain.
  - intros C. apply Hl. rewrite E. apply in_or_app. now right.
  - intros C. unfold plain in C. rewrite Forall_forall in C. apply Hc, C. destruct (exists_last Hy) as (y' & z & ->). rewrite app_assoc in E. apply app_inj_tail in E. destruct E as [_ ->].
    apply in_or_app. right. now left.
Qed.
Lemma sub_none s : (forall x y, s = x ++ y -> host_match y = None) -> forall f, host_sub f s = s.
Proof.
  intros H f. revert s H. induction f as [|f IH]; intros s H; [reflexivity|]. cbn [host_sub]. rewrite (H [] s eq_refl). destruct s as [|c r]; [reflexivity|]. f_equal. apply IH.
  intros x y E. apply (H (c :: x) y). cbn. congruence.
Qed.
Lemma few_tail ls x y : Forall label ls -> (length ls <= 2)%nat -> dotted ls = x ++ y -> host_match y = None.
Proof.
  intros HF HL E. assert (exists ms, Forall label ms /\ (length ms <= 2)%nat /\ y = dotted ms) as (ms & H1 & H2 & ->); [|now apply match_few].
  exists (split_on dot y). split; [apply split_on_nosep|]. split; [|unfold dotted; now rewrite join_split].
  assert (C : forall s, length (split_on dot s) = S (count_occ N.eq_dec s dot)).
  { clear. induction s as [|c s IH]; [reflexivity|]. cbn [split_on count_occ]. destruct (N.eqb_spec c dot) as [->|Ne].
    - destruct (N.eq_dec dot dot); [|congruence]. cbn [length]. now rewrite IH.
    - destruct (N.eq_dec c dot); [congruence|]. destruct (split_on dot s) as [|p ps]; [discriminate|]. exact IH. }
  rewrite C. pose proof (f_equal (fun s => count_occ N.eq_dec s dot) E) as X. cbn beta in X. rewrite count_occ_app in X.
  destruct ls as [|l ls]; [cbn in X; lia|]. assert (Es : split_on dot (dotted (l :: ls)) = l :: ls) by (apply split_on_join; [discriminate|exact HF]).
  pose proof (C (dotted (l :: ls))) as Y. rewrite Es in Y. cbn [length] in *. lia.
Qed.

Lemma sub_shortened ls out : shortened ls out -> Forall label ls -> forall f, (length (dotted ls) <= f)%nat -> host_sub f (dotted ls) = out.
Proof.
  induction 1 as [ls HL|h p qs a b Hh Hp Hq|h p qs a b r out Hh Hp Hq Ha Hr S IH]; intros HF f Hf.
  - apply sub_none. intros x y E. exact (few_tail ls x y HF HL E).
  - inversion HF as [|? ? Hl HF']; subst. apply Forall_app in HF'. destruct HF' as [_ HF'].
    assert (Lh : label h) by (intros C; apply Hl; apply in_or_app; now left).
    rewrite dotted_cons in * by (destruct qs; discriminate). rewrite <- app_assoc in *. rewrite <- dotted_cons in * by (destruct qs; discriminate).
    replace f with (length h + (f - length h))%nat by (rewrite app_length in Hf; lia). rewrite sub_keep; [|exact Hh|exact Lh|intros x y; now apply odd_tail].
    f_equal. rewrite app_length in Hf. destruct (f - length h)%nat as [|g] eqn:Eg; [exfalso|].
    + assert (length (dotted (p :: qs ++ [a; b])) = 0%nat) as X by lia. rewrite dotted_cons in X by (destruct qs; discriminate). rewrite app_length in X. cbn [length] in X. lia.
    + cbn [host_sub]. rewrite match_more by (try assumption; now right). destruct g; cbn [host_sub behind]; [apply app_nil_r|rewrite match_nil; apply app_nil_r].
  - inversion HF as [|? ? Hl HF']; subst. apply Forall_app in HF'. destruct HF' as [_ HF'].
    assert (Lh : label h) by (intros C; apply Hl; apply in_or_app; now left).
    rewrite dotted_cons in * by (destruct qs; discriminate). rewrite <- app_assoc in *. rewrite <- dotted_cons in * by (destruct qs; discriminate).
    replace f with (length h + (f - length h))%nat by (rewrite app_length in Hf; lia). rewrite sub_keep; [|exact Hh|exact Lh|intros x y; now apply odd_tail].
    f_equal. rewrite app_length in Hf.
    assert (Lb : (length (behind r) < length (dotted (p :: qs ++ a :: b :: r)))%nat).
    { clear - Hr. revert p. induction qs as [|q qs IHq]; intros p.
      - cbn [app]. rewrite dotted_cons by discriminate. rewrite dotted_two, !app_length. cbn [length]. rewrite !app_length. cbn [length]. rewrite app_length. lia.
      - cbn [app]. rewrite dotted_cons by discriminate. rewrite app_length. specialize (IHq q). cbn [length]. lia. }
    destruct (f - length h)%nat as [|g] eqn:Eg; [exfalso; lia|].
    cbn [host_sub]. rewrite match_more by (try assumption; now left). f_equal. assert (Eb : behind r = dotted ([] :: r)) by (destruct r; [congruence|reflexivity]).
    rewrite Eb in *. apply IH; [constructor; [intros []|]|lia]. inversion HF' as [|? ? _ X]; subst. inversion X; subst. assumption.
Qed.

Lemma split_odd l : exists h p, l = h ++ p /\ odd_end h /\ plain p.
Proof.
  induction l as [|c l (h & p & -> & Hh & Hp)]; [exists [], []; split; [reflexivity|]; split; [now left|constructor]|].
  destruct Hh as [->|(r & d & -> & Hd)].
  - destruct (plain_dec c) as [Hc|Hc]; [exists [], (c :: p); split; [reflexivity|]; split; [now left|now constructor]|].
    exists [c], p. split; [reflexivity|]. split; [right; exists [], c; now split|exact Hp].
  - exists ((c :: r) ++ [d]), p. split; [cbn; now rewrite <- app_assoc|]. split; [right; now exists (c :: r), d|exact Hp].
Qed.
Lemma split_plain : forall ls, (2 <= length ls)%nat -> exists qs a b r, ls = qs ++ a :: b :: r /\ Forall plain qs /\ (r = [] \/ (~ plain a /\ r <> [])).
Proof.
  induction ls as [|a ls IH]; cbn [length]; intros H; [lia|]. destruct ls as [|b [|c r]]; cbn [length] in *; [lia| |].
  - exists [], a, b, []. split; [reflexivity|]. split; [constructor|now left].
  - destruct (Forall_dec plain_char plain_dec a) as [P|P].
    + destruct IH as (qs & x & y & r' & E & Hq & Hr); [lia|]. exists (a :: qs), x, y, r'. split; [cbn; congruence|]. split; [now constructor|exact Hr].
    + exists [], a, b, (c :: r). split; [reflexivity|]. split; [constructor|]. right. split; [exact P|discriminate].
Qed.
Lemma shortened_some : forall n ls, (length ls <= n)%nat -> exists out, shortened ls out.
Proof.
  induction n as [|n IH]; intros ls H; [destruct ls; [|cbn [length] in H; lia]; eexists; apply short_few; cbn; lia|].
  destruct (le_lt_dec (length ls) 2) as [L|L]; [eexists; now apply short_few|]. destruct ls as [|l ls]; [cbn [length] in L; lia|]. cbn [length] in *.
  destruct (split_odd l) as (h & p & -> & Hh & Hp). destruct (split_plain ls) as (qs & a & b & r & -> & Hq & [->|[Ha Hr]]); [lia| |].
  - eexists. now apply short_last.
  - rewrite app_length in H. cbn [length] in H. destruct (IH ([] :: r)) as (out & S); [cbn [length]; lia|]. eexists. now apply short_more; [| | | | |exact S].
Qed.

(** ** C121 *)

(** The replacement gives what the description gives, for every host name. *)
Theorem C121_shortened : forall host out, norm_host host = out <-> shortened (split_on dot host) out.
Proof.
  intros host out. assert (D : forall out, shortened (split_on dot host) out -> norm_host host = out).
  { intros o S. unfold norm_host. rewrite <- (join_split dot host) at 2. apply (sub_shortened _ _ S (split_on_nosep dot host)). unfold dotted. now rewrite join_split. }
  split; [|apply D]. intros E. destruct (shortened_some _ (split_on dot host) (le_n _)) as (o & S). rewrite <- E, (D o S). exact S.
Qed.
Print Assumptions C121_shortened.

(** Hosts of one site: labels of letters, hyphens, 0 and 1 before the last two go. *)
Theorem C121_same_site : forall qs a b, qs <> [] -> Forall plain qs -> label a -> label b -> norm_host (dotted (qs ++ [a; b])) = dotted [a; b].
Proof.
  intros qs a b Hq HF Ha Hb. apply C121_shortened. unfold dotted at 1. rewrite split_on_join.
  - destruct HF as [|p qs Hp HF]; [congruence|]. exact (short_last [] p qs a b (or_introl eq_refl) Hp HF).
  - destruct qs; discriminate.
  - apply Forall_app. split; [eapply Forall_impl; [|exact HF]; apply plain_label|now repeat constructor].
Qed.
Print Assumptions C121_same_site.

(** With a digit above 1 in the first label, the hosts of a site are kept apart, and the
    name that results is that of another host; different addresses are taken for one. *)
Theorem C121_digits_refuted : 
  norm_host (lit "img2.example.com") <> norm_host (lit "img3.example.com") /\ norm_host (lit "img2.example.com") <> norm_host (lit "www.example.com") /\
  norm_host (lit "img2.example.com") = norm_host (lit "img2example.com") /\ norm_host (lit "10.2.3.4") = norm_host (lit "11.2.3.4").
Proof. repeat split; vm_compute; try discriminate; reflexivity. Qed.
Print Assumptions C121_digits_refuted.

(** Different sites under one two-label suffix are one. *)
Theorem C121_sites_refuted : norm_host (lit "www.alice.co.uk") = norm_host (lit "bob.co.uk").
Proof. reflexivity. Qed.
Print Assumptions C121_sites_refuted.

(** Names that are shortened, names that are joined up, and one left alone. *)
Example C121_case : map norm_host (map lit ["www.example.com"; "a.b.c.example.com"; "www.example.com:8080"; "localhost:8080"; "192.168.1.7"; "x2.y.z3.w.v.u"]%string)
  = map lit ["example.com"; "example.com"; "example.com:8080"; "localhost:8080"; "192168.1.7"; "x2z3.wv.u"]%string.
Proof. vm_compute. reflexivity. Qed.
