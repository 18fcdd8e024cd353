(** * The two processes of the fork codec: facts about every execution. *)
From Coq Require Import String List NArith ZArith Bool Lia Arith ZifyN ZifyNat.
From Verif Require Import PyBase PyStr Lib_Model H1_Model Fork_Model.
Import ListNotations.
Open Scope N_scope.

(** ** Specification *)

(** Executions. *)
Inductive runs (cd cu : N) (s : system) : system -> Prop :=
| runs_here : runs cd cu s s
| runs_step t u : runs cd cu s t -> step cd cu t u -> runs cd cu s u.

(** The text made of the lines [ls]. *)
Definition lines_text (ls : list str) : str := flat_map (fun l => l ++ [10]) ls.

(** A line which shows something. *)
Definition visible (l : str) : Prop := ~ In 10 l /\ exists c, In c l /\ is_space c = false.

(** [m] is the text [body], all of whose lines show something, and one line
    which shows nothing. *)
Definition one_block (m body : str) : Prop := exists ls bl,
  body = lines_text ls /\ m = body ++ bl ++ [10] /\ Forall visible ls /\
  ~ In 10 bl /\ Forall (fun c => is_space c = true) bl.

(** ** Blank lines *)

Lemma lstrip_app_space p a b : forallb p a = true -> lstrip p (a ++ b) = lstrip p b.
Proof. induction a as [|x a IH]; cbn; [reflexivity|]. intros H. apply andb_prop in H as [-> H]. auto. Qed.

Lemma lstrip_nil p s : lstrip p s = [] <-> forallb p s = true.
Proof. induction s as [|x s IH]; cbn; [tauto|]. destruct (p x); cbn; [tauto|]. split; discriminate. Qed.

Lemma strip_nil p s : strip p s = [] <-> forallb p s = true.
Proof.
  unfold strip, rstrip. split; intros H.
  - assert (E : lstrip p (rev (lstrip p s)) = []).
    { rewrite <- (rev_involutive (lstrip p (rev (lstrip p s)))), H. reflexivity. }
    apply lstrip_nil in E. rewrite forallb_forall in E. apply lstrip_nil.
    destruct (lstrip p s) as [|x t] eqn:L; [reflexivity|exfalso].
    assert (F : p x = true) by (apply E; rewrite <- in_rev; now left).
    assert (G : forall s, lstrip p s = x :: t -> p x = false).
    { clear. induction s as [|y s IH]; cbn; [discriminate|]. destruct (p y) eqn:P; [auto|]. congruence. }
    rewrite (G _ L) in F. discriminate.
  - apply lstrip_nil in H. rewrite H. reflexivity.
Qed.

Lemma blank_line_spec l : blank_line l = forallb is_space l.
Proof.
  unfold blank_line. destruct (forallb is_space l) eqn:E.
  - apply strip_nil in E. now rewrite E.
  - destruct (strip is_space l) eqn:S; [|reflexivity]. apply strip_nil in S. congruence.
Qed.

Lemma visible_not_blank l : visible l -> blank_line (l ++ [10]) = false.
Proof.
  intros (_ & c & Hc & E). rewrite blank_line_spec, forallb_app.
  destruct (forallb is_space l) eqn:F; [|reflexivity]. rewrite forallb_forall in F. rewrite (F _ Hc) in E. discriminate.
Qed.

Lemma spaces_blank bl : Forall (fun c => is_space c = true) bl -> blank_line (bl ++ [10]) = true.
Proof.
  intros H. rewrite blank_line_spec, forallb_app. apply andb_true_intro. split; [|reflexivity].
  apply forallb_forall. now apply Forall_forall.
Qed.

(** The first newline of a text splits it in one way only. *)
Lemma first_newline : forall a b x y : str, ~ In 10 a -> ~ In 10 b -> a ++ 10 :: x = b ++ 10 :: y -> a = b /\ x = y.
Proof.
  induction a as [|c a IH]; intros [|e b] x y Ha Hb E; cbn [app] in E.
  - split; congruence.
  - exfalso. apply Hb. left. congruence.
  - exfalso. apply Ha. left. congruence.
  - assert (c = e) by congruence. assert (E2 : a ++ 10 :: x = b ++ 10 :: y) by congruence. subst e.
    destruct (IH b x y) as [-> ->]; auto; intros I; [apply Ha|apply Hb]; now right.
Qed.

Lemma no_newline_app (l : str) x : ~ In 10 l -> x <> 10 -> ~ In 10 (l ++ [x]).
Proof. intros H N I. apply in_app_iff in I. destruct I as [I|[I|[]]]; auto. Qed.

(** ** Every execution ends *)

Definition len (s : str) : nat := length s.

Definition p_weight (p : parent) : nat :=
  match p with
  | Idle todo _ => list_sum (map (fun m => 7 * len m + 3) todo)
  | Writing rest todo _ => 7 * len rest + 2 + list_sum (map (fun m => 7 * len m + 3) todo)
  | Listening _ _ todo _ => 1 + list_sum (map (fun m => 7 * len m + 3) todo)
  end%nat.

Definition c_weight (c : child) : nat :=
  match c with
  | Reading buf line kept => 5 * len buf + 3 * len line + 3 * len kept
  | Answering buf rest => 5 * len buf + 3 * len rest + 1
  end%nat.

Definition weight (s : system) : nat :=
  (p_weight (s_parent s) + 6 * len (s_down s) + c_weight (s_child s) + 2 * len (s_up s))%nat.

Lemma step_weight cd cu s t : step cd cu s t -> (weight t < weight s)%nat.
Proof.
  intros H. destruct H; subst; unfold weight, heard, taken; cbn [s_parent s_down s_child s_up];
    try (destruct (blank_line _)); unfold p_weight, c_weight, len; cbn [map]; rewrite ?app_length; cbn [length list_sum fold_right]; fold list_sum;
    try (destruct a; [congruence|cbn [length]]); rewrite ?app_length; cbn [length]; try lia.
  unfold list_sum. lia.
Qed.

Lemma all_end cd cu s : Acc (fun t s => step cd cu s t) s.
Proof.
  remember (weight s) as n eqn:E. revert s E. induction n as [n IH] using (well_founded_induction Nat.lt_wf_0).
  intros s ->. constructor. intros t H. apply (IH (weight t)); [exact (step_weight _ _ _ _ H)|reflexivity].
Qed.

(** ** What an execution can look like when every message is one block *)

Section Session.
Variables cd cu : N.

Lemma lines_text_app a b : lines_text (a ++ b) = lines_text a ++ lines_text b.
Proof. unfold lines_text. apply flat_map_app. Qed.

(** The child has to take [i] before it answers [body]. *)
Definition awaits (line i kept body : str) : Prop := exists ks ls bl,
  ~ In 10 line /\ line ++ i = lines_text ls ++ bl ++ [10] /\ kept = lines_text ks /\ body = lines_text (ks ++ ls) /\
  Forall visible (ks ++ ls) /\ ~ In 10 bl /\ Forall (fun c => is_space c = true) bl.

(** The parent is to hear [i] before the call returns [body]. *)
Definition hears (line i out body : str) : Prop := exists ls,
  ~ In 10 line /\ line ++ i = lines_text ls ++ [10] /\ out ++ lines_text ls = body /\ Forall visible ls.

Definition sending (p : parent) rest todo done : Prop :=
  p = Writing rest todo done \/ (rest = [] /\ p = Listening [] [] todo done).
Definition listening (p : parent) line out todo done : Prop :=
  p = Listening line out todo done \/ (line = [] /\ out = [] /\ p = Writing [] todo done).
Definition speaking (c : child) r : Prop := c = Answering [] r \/ (r = [] /\ c = Reading [] [] []).

Inductive inv (bodies : list str) : system -> Prop :=
| inv_idle todo done bs c : speaking c [] -> Forall2 one_block todo bs -> bodies = done ++ bs ->
    inv bodies (mk_sys (Idle todo done) [] c [])
| inv_send_rested p rest todo done d b bs : sending p rest todo done ->
    Forall2 one_block todo bs -> bodies = done ++ b :: bs -> awaits [] (d ++ rest) [] b ->
    inv bodies (mk_sys p d (Answering [] []) [])
| inv_send p rest todo done d buf line kept b bs : sending p rest todo done ->
    Forall2 one_block todo bs -> bodies = done ++ b :: bs -> awaits line (buf ++ d ++ rest) kept b ->
    inv bodies (mk_sys p d (Reading buf line kept) [])
| inv_hear p c line out r u todo done b bs : listening p line out todo done -> speaking c r ->
    Forall2 one_block todo bs -> bodies = done ++ b :: bs -> hears line (u ++ r) out b ->
    inv bodies (mk_sys p [] c u).

Lemma awaits_nonempty line kept body : ~ awaits line [] kept body.
Proof.
  intros (ks & ls & bl & Hn & E & _). rewrite app_nil_r in E. apply Hn. rewrite E, !in_app_iff. right. right. now left.
Qed.

Lemma hears_nonempty line out body : ~ hears line [] out body.
Proof. intros (ls & Hn & E & _). rewrite app_nil_r in E. apply Hn. rewrite E, in_app_iff. right. now left. Qed.

Lemma awaits_start m b : one_block m b -> awaits [] m [] b.
Proof. intros (ls & bl & -> & -> & H1 & H2 & H3). exists [], ls, bl. cbn. repeat split; auto. Qed.

Lemma awaits_take line x i kept b : x <> 10 -> awaits line (x :: i) kept b -> awaits (line ++ [x]) i kept b.
Proof.
  intros Hx (ks & ls & bl & Hn & E & R). exists ks, ls, bl. split; [now apply no_newline_app|]. split; [|exact R].
  now rewrite <- app_assoc.
Qed.

Lemma awaits_taken line i kept b : awaits line (10 :: i) kept b ->
  (blank_line (line ++ [10]) = false /\ awaits [] i (kept ++ line ++ [10]) b) \/
  (blank_line (line ++ [10]) = true /\ i = [] /\ hears [] (kept ++ [10]) [] b).
Proof.
  intros (ks & ls & bl & Hn & E & Hk & Hb & Hv & Hl & Hs). destruct ls as [|l ls].
  - right. cbn [lines_text flat_map app] in E. destruct (first_newline line bl i []) as [-> ->]; auto.
    split; [now apply spaces_blank|]. split; [reflexivity|].
    rewrite app_nil_r in Hb, Hv. exists ks. subst kept b. cbn [app]. repeat split; auto.
  - left. assert (Vl : visible l). { apply Forall_app in Hv as [_ Hv]. now inversion Hv. }
    cbn [lines_text flat_map] in E. rewrite <- !app_assoc in E. cbn [app] in E. fold (lines_text ls) in E.
    destruct (first_newline line l i (lines_text ls ++ bl ++ [10])) as [-> ->]; auto; [apply Vl|].
    split; [now apply visible_not_blank|]. exists (ks ++ [l]), ls, bl. split; [intros []|]. split; [reflexivity|].
    split; [rewrite lines_text_app; cbn; rewrite app_nil_r; now subst kept|].
    rewrite <- app_assoc. cbn [app]. repeat split; auto.
Qed.

Lemma hears_hear line x i out b : x <> 10 -> hears line (x :: i) out b -> hears (line ++ [x]) i out b.
Proof.
  intros Hx (ls & Hn & E & R). exists ls. split; [now apply no_newline_app|]. split; [|exact R].
  now rewrite <- app_assoc.
Qed.

Lemma hears_heard line i out b : hears line (10 :: i) out b ->
  (blank_line (line ++ [10]) = false /\ hears [] i (out ++ line ++ [10]) b) \/
  (blank_line (line ++ [10]) = true /\ i = [] /\ out = b).
Proof.
  intros (ls & Hn & E & Hb & Hv). destruct ls as [|l ls].
  - right. cbn [lines_text flat_map app] in E. destruct (first_newline line [] i []) as [-> ->]; auto.
    cbn [lines_text flat_map] in Hb. rewrite app_nil_r in Hb. repeat split; auto.
  - left. assert (Vl : visible l) by (now inversion Hv).
    cbn [lines_text flat_map] in E, Hb. rewrite <- !app_assoc in E. cbn [app] in E. fold (lines_text ls) in E, Hb.
    destruct (first_newline line l i (lines_text ls ++ [10])) as [-> ->]; auto; [apply Vl|].
    split; [now apply visible_not_blank|]. exists ls. split; [intros []|]. split; [reflexivity|].
    split; [rewrite <- Hb, <- !app_assoc; reflexivity|]. now inversion Hv.
Qed.

Lemma inv_start ms bodies : Forall2 one_block ms bodies -> inv bodies (start ms).
Proof. intros H. apply inv_idle with (bs := bodies); auto. right. auto. Qed.

Lemma inv_step bodies s t : inv bodies s -> step cd cu s t -> inv bodies t.
Proof.
  intros I St. destruct I as [todo done bs c Hc Hf Hb | p rest todo done d b bs Hp Hf Hb Ha
    | p rest todo done d buf line kept b bs Hp Hf Hb Ha | p c line out r u todo done b bs Hp Hc Hf Hb Hh].
  - inversion St; subst.
    + inversion Hf; subst. destruct Hc as [->|[_ ->]].
      * eapply inv_send_rested; eauto; [left; reflexivity|]. cbn. now apply awaits_start.
      * eapply inv_send; eauto; [left; reflexivity|]. cbn. now apply awaits_start.
    + match goal with H : [] = _ ++ _ |- _ => symmetry in H; apply app_eq_nil in H as [-> _] end. congruence.
    + destruct Hc as [Hc|[_ Hc]]; discriminate.
    + destruct Hc as [Hc|[_ Hc]]; discriminate.
    + destruct Hc as [Hc|[_ Hc]]; discriminate.
    + destruct Hc as [Hc|[_ Hc]]; [|discriminate]. inversion Hc; subst. eapply inv_idle; eauto. right. auto.
  - inversion St; subst; try (destruct Hp as [Hp|[-> Hp]]; inversion Hp; subst).
    + eapply inv_send_rested; eauto; [left; reflexivity|]. now rewrite <- app_assoc.
    + eapply inv_send_rested; eauto. right. auto.
    + eapply inv_send; eauto; left; reflexivity.
    + eapply inv_send; eauto. right. auto.
  - inversion St; subst; try (destruct Hp as [Hp|[-> Hp]]; inversion Hp; subst).
    + eapply inv_send; eauto; [left; reflexivity|]. now rewrite <- app_assoc.
    + eapply inv_send; eauto. right. auto.
    + eapply inv_send; eauto; [left; reflexivity|]. cbn [app] in Ha. now rewrite <- app_assoc in Ha.
    + eapply inv_send; eauto; [right; eauto|]. cbn [app] in Ha. now rewrite <- app_assoc in Ha.
    + eapply inv_send; eauto; [left; reflexivity|]. cbn [app] in Ha. now apply awaits_take.
    + eapply inv_send; eauto; [right; eauto|]. cbn [app] in Ha. now apply awaits_take.
    + cbn [app] in Ha. unfold taken. destruct (awaits_taken _ _ _ _ Ha) as [[-> Hn]|[-> [He Hn]]].
      * eapply inv_send; eauto; left; reflexivity.
      * apply app_eq_nil in He as [-> He]. apply app_eq_nil in He as [-> ->].
        eapply inv_hear; eauto; [right; eauto|left; reflexivity].
    + cbn [app] in Ha. unfold taken. destruct (awaits_taken _ _ _ _ Ha) as [[-> Hn]|[-> [He Hn]]].
      * eapply inv_send; eauto; right; eauto.
      * apply app_eq_nil in He as [-> He]. apply app_eq_nil in He as [-> _].
        eapply inv_hear; eauto; [left; eauto|left; reflexivity].
  - inversion St; subst;
      try (match type of Hp with listening _ _ _ _ _ => destruct Hp as [Hp|(-> & -> & Hp)]; inversion Hp; subst end);
      try (match goal with H : [] = _ ++ _ |- _ => symmetry in H; apply app_eq_nil in H as [-> _]; congruence end).
    + eapply inv_hear; eauto. left. reflexivity.
    + eapply inv_hear; eauto; [left; reflexivity|]. cbn [app] in Hh. now apply hears_hear.
    + cbn [app] in Hh. unfold heard. destruct (hears_heard _ _ _ _ Hh) as [[-> Hn]|[-> [He Hn]]].
      * eapply inv_hear; eauto. left. reflexivity.
      * apply app_eq_nil in He as [-> ->]. subst b. eapply inv_idle; eauto. now rewrite <- app_assoc.
    + destruct Hc as [Hc|[_ Hc]]; discriminate.
    + destruct Hc as [Hc|[_ Hc]]; discriminate.
    + destruct Hc as [Hc|[_ Hc]]; discriminate.
    + destruct Hc as [Hc|[_ Hc]]; discriminate.
    + destruct Hc as [Hc|[_ Hc]]; [|discriminate]. inversion Hc; subst.
      eapply inv_hear; eauto; [left; reflexivity|left; reflexivity|]. now rewrite <- app_assoc.
    + destruct Hc as [Hc|[_ Hc]]; [|discriminate]. inversion Hc; subst.
      eapply inv_hear; eauto; [right; eauto|left; reflexivity|]. now rewrite <- app_assoc.
    + destruct Hc as [Hc|[_ Hc]]; [|discriminate]. inversion Hc; subst.
      eapply inv_hear; eauto; [left; reflexivity|right; auto].
    + destruct Hc as [Hc|[_ Hc]]; [|discriminate]. inversion Hc; subst.
      eapply inv_hear; eauto; [right; eauto|right; auto].
Qed.

Lemma inv_runs ms bodies s : Forall2 one_block ms bodies -> runs cd cu (start ms) s -> inv bodies s.
Proof. intros H R. induction R; [now apply inv_start|eapply inv_step; eauto]. Qed.

Lemma inv_finished bodies s r : inv bodies s -> finished s r -> r = bodies.
Proof.
  unfold finished. intros I E. destruct I as [todo done bs c Hc Hf Hb | p rest todo done d b bs Hp Hf Hb Ha
    | p rest todo done d buf line kept b bs Hp Hf Hb Ha | p c line out x u todo done b bs Hp Hc Hf Hb Hh];
    cbn [s_parent] in E; subst.
  - inversion E; subst. inversion Hf; subst. now rewrite app_nil_r.
  - destruct Hp as [Hp|[_ Hp]]; discriminate.
  - destruct Hp as [Hp|[_ Hp]]; discriminate.
  - destruct Hp as [Hp|(_ & _ & Hp)]; discriminate.
Qed.

Lemma inv_progress bodies s : 0 < cd -> 0 < cu -> inv bodies s -> finished s bodies \/ exists t, step cd cu s t.
Proof.
  intros C1 C2 I. destruct I as [todo done bs c Hc Hf Hb | p rest todo done d b bs Hp Hf Hb Ha
    | p rest todo done d buf line kept b bs Hp Hf Hb Ha | p c line out x u todo done b bs Hp Hc Hf Hb Hh].
  - destruct todo as [|m todo]; [left|right; eexists; constructor].
    inversion Hf; subst. unfold finished. cbn. now rewrite app_nil_r.
  - right. eexists. apply st_answered.
  - right. destruct buf as [|y buf].
    + destruct d as [|y d].
      * destruct Hp as [->|[-> ->]]; [|destruct (awaits_nonempty _ _ _ Ha)].
        destruct rest as [|y rest]; [destruct (awaits_nonempty _ _ _ Ha)|].
        eexists. apply st_write. cbn. lia.
      * eexists. apply st_fill with (a := y :: d) (b := []); [discriminate|]. now rewrite app_nil_r.
    + destruct (N.eq_dec y 10) as [->|N]; eexists; [apply st_taken|apply st_take; exact N].
  - right. destruct Hp as [->|(-> & -> & ->)]; [|eexists; apply st_written].
    destruct u as [|y u].
    + destruct Hc as [->|[-> ->]]; [|destruct (hears_nonempty _ _ _ Hh)].
      destruct x as [|y x]; [destruct (hears_nonempty _ _ _ Hh)|].
      eexists. apply st_answer. cbn. lia.
    + destruct (N.eq_dec y 10) as [->|N]; eexists; [apply st_heard|apply st_hear; exact N].
Qed.
End Session.
