(** * Property C126: the fork codec in binary mode. *)
From Coq Require Import String List NArith ZArith Bool Lia Arith ZifyN ZifyNat.
From Verif Require Import PyBase PyStr Lib_Model H1_Model Fork_Model Fork_Proofs ForkBin_Model.
Import ListNotations.
Open Scope N_scope.

(** ** Specification *)

(** Executions. *)
Inductive bruns (answer : str -> str) (cd cu : N) (s : bsystem) : bsystem -> Prop :=
| bruns_here : bruns answer cd cu s s
| bruns_step t u : bruns answer cd cu s t -> bstep answer cd cu t u -> bruns answer cd cu s u.

(** A number in eight octets, the least significant one first; negative ones modulo 2^64. *)
Definition eight (n : N) : str := map (fun i => (n / 256 ^ i) mod 256) [0; 1; 2; 3; 4; 5; 6; 7].
Definition announces (h : str) (z : Z) : Prop :=
  (- 2 ^ 63 <= z < 2 ^ 63)%Z /\ h = eight (Z.to_N (z mod 2 ^ 64)).

(** An answer: its length, then itself; and one that announces more than follows, or a negative
    length. *)
Definition framed (a r : str) : Prop := exists h, a = h ++ r /\ announces h (Z.of_nat (length r)).
Definition overstated (a : str) : Prop := exists h z r, a = h ++ r /\ announces h z /\ (z < 0 \/ Z.of_nat (length r) < z)%Z.

(** ** Proofs *)

Lemma digits_value k : forall n, unsigned_le (map (fun i => (n / 256 ^ i) mod 256) (map N.of_nat (seq 0 k))) = n mod 256 ^ N.of_nat k.
Proof.
  induction k as [|k IH]; intros n; [now rewrite N.mod_1_r|]. cbn [seq map unsigned_le fold_right]. change (N.of_nat 0) with 0. rewrite N.pow_0_r, N.div_1_r.
  fold (unsigned_le (map (fun i => (n / 256 ^ i) mod 256) (map N.of_nat (seq 1 k)))).
  assert (E : map (fun i => (n / 256 ^ i) mod 256) (map N.of_nat (seq 1 k)) = map (fun i => (n / 256 / 256 ^ i) mod 256) (map N.of_nat (seq 0 k))).
  { rewrite <- seq_shift, !map_map. apply map_ext. intros i. replace (N.of_nat (S i)) with (1 + N.of_nat i) by lia. rewrite N.pow_add_r, N.pow_1_r, N.div_div by (try apply N.pow_nonzero; lia). reflexivity. }
  rewrite E, IH. replace (N.of_nat (S k)) with (1 + N.of_nat k) by lia. rewrite N.pow_add_r, N.pow_1_r, N.mod_mul_r by (try apply N.pow_nonzero; lia). reflexivity.
Qed.
Lemma eight_length n : length (eight n) = 8%nat.
Proof. reflexivity. Qed.
Lemma announces_unpack h z : announces h z -> length h = 8%nat /\ unpack_q h = z.
Proof.
  intros [B ->]. split; [reflexivity|]. unfold unpack_q, eight. change [0; 1; 2; 3; 4; 5; 6; 7] with (map N.of_nat (seq 0 8)). rewrite digits_value.
  change (256 ^ N.of_nat 8) with (2 ^ 64). change (2 ^ 64)%Z with 18446744073709551616%Z. change (2 ^ 64) with 18446744073709551616. change (2 ^ 63) with 9223372036854775808.
  change (2 ^ 63)%Z with 9223372036854775808%Z in B. pose proof (Z.mod_pos_bound z 18446744073709551616 ltac:(lia)) as M.
  rewrite N.mod_small by lia. destruct (Z.neg_nonneg_cases z) as [L|L].
  - assert (E : (z mod 18446744073709551616 = z + 18446744073709551616)%Z) by (symmetry; apply Z.mod_unique with (q := (-1)%Z); lia). rewrite E.
    destruct (N.ltb_spec (Z.to_N (z + 18446744073709551616)) 9223372036854775808); lia.
  - assert (E : (z mod 18446744073709551616 = z)%Z) by (apply Z.mod_small; lia). rewrite E. destruct (N.ltb_spec (Z.to_N z) 9223372036854775808); lia.
Qed.

Lemma app_cut (a b c d : str) : length a = length b -> a ++ c = b ++ d -> a = b /\ c = d.
Proof.
  revert b. induction a as [|x a IH]; intros [|y b] L E; cbn in *; try discriminate; [auto|]. assert (x = y) by congruence. assert (E2 : a ++ c = b ++ d) by congruence.
  destruct (IH b ltac:(lia) E2) as [-> ->]. subst. auto.
Qed.

(** *** Every execution ends *)
Definition todo_of (p : bparent) : list str := match p with BIdle t _ | BWriting _ t _ | BHead _ t _ | BBody _ _ t _ => t end.
Definition rest_of (p : bparent) : str := match p with BWriting r _ _ => r | _ => [] end.
Definition phase (p : bparent) : nat := match p with BIdle _ _ => 0 | BWriting _ _ _ => 2 | _ => 1 end.
Definition octets_in (l : list str) : nat := list_sum (map (@length N) l).
Definition buf_of (c : child) : str := match c with Reading b _ _ | Answering b _ => b end.
Definition input_left (s : bsystem) : nat := octets_in (todo_of (b_parent s)) + length (rest_of (b_parent s)) + length (b_down s) + length (buf_of (b_child s)).
Definition other_left (s : bsystem) : nat :=
  2 * octets_in (todo_of (b_parent s)) + 3 * length (todo_of (b_parent s)) + phase (b_parent s) + 2 * length (rest_of (b_parent s)) + length (b_down s) +
  match b_child s with Answering _ r => 2 * length r + 1 | _ => 0 end + length (b_up s).
Lemma body_got_keeps n g todo done : todo_of (body_got n g todo done) = todo /\ rest_of (body_got n g todo done) = [] /\ (phase (body_got n g todo done) <= 1)%nat.
Proof. unfold body_got. destruct (_ =? _)%Z; cbn; auto. Qed.
Lemma head_got_keeps g todo done : todo_of (head_got g todo done) = todo /\ rest_of (head_got g todo done) = [] /\ (phase (head_got g todo done) <= 1)%nat.
Proof. unfold head_got. destruct (_ =? _)%nat; [apply body_got_keeps|cbn; auto]. Qed.
Lemma bstep_less answer cd cu s t : bstep answer cd cu s t -> (input_left t < input_left s \/ (input_left t = input_left s /\ other_left t < other_left s))%nat.
Proof.
  intros H. destruct H; subst; unfold input_left, other_left; cbn [b_parent b_down b_child b_up todo_of rest_of phase buf_of];
    rewrite ?app_length; cbn [length octets_in map list_sum fold_right]; unfold octets_in; cbn [map list_sum fold_right]; fold list_sum; try lia.
  - unfold list_sum. lia.
  - destruct (head_got_keeps (got ++ [x]) todo done) as (-> & -> & P). right. cbn [length]. lia.
  - destruct (body_got_keeps n (got ++ [x]) todo done) as (-> & -> & P). right. cbn [length]. lia.
  - destruct a; [congruence|]. cbn [length]. lia.
  - left. unfold btaken. destruct (blank_line _); cbn [buf_of length]; lia.
Qed.
Theorem C126_ends : forall answer cd cu s, Acc (fun t s => bstep answer cd cu s t) s.
Proof.
  intros answer cd cu s. remember (input_left s) as n eqn:En. revert s En. induction n as [n IHn] using (well_founded_induction Nat.lt_wf_0). intros s.
  remember (other_left s) as k eqn:Ek. revert s Ek. induction k as [k IHk] using (well_founded_induction Nat.lt_wf_0). intros s Ek En. constructor. intros t H.
  destruct (bstep_less answer cd cu s t H) as [L|[E L]]; [eapply IHn; [|reflexivity]; lia|]. eapply IHk; [|reflexivity|]; lia.
Qed.
Print Assumptions C126_ends.

(** *** Sessions *)
Section Session.
Context (answer : str -> str) (cd cu : N).

(** The parent is in its call and has got the octets [got] of the answer. *)
Inductive getting : bparent -> str -> list str -> list str -> Prop :=
| getting_none todo done : getting (BWriting [] todo done) [] todo done
| getting_head g todo done : (length g < 8)%nat -> getting (BHead g todo done) g todo done
| getting_body h g n todo done : length h = 8%nat -> unpack_q h = n -> (n < 0 \/ Z.of_nat (length g) < n)%Z -> getting (BBody n g todo done) (h ++ g) todo done.
Definition bsending (p : bparent) rest todo done : Prop := p = BWriting rest todo done \/ (rest = [] /\ p = BHead [] todo done).

Definition good (b : str) : Prop := (exists r, framed (answer b) r) \/ overstated (answer b).
Definition results (pre done : list str) : Prop := Forall2 (fun b r => framed (answer b) r) pre done.

Inductive binv (bodies : list str) : bsystem -> Prop :=
| binv_idle todo done pre bs c : speaking c [] -> Forall2 one_block todo bs -> bodies = pre ++ bs -> results pre done ->
    binv bodies (mk_bsys (BIdle todo done) [] c [])
| binv_send_rested p rest todo done d pre b bs : bsending p rest todo done ->
    Forall2 one_block todo bs -> bodies = pre ++ b :: bs -> results pre done -> awaits [] (d ++ rest) [] b ->
    binv bodies (mk_bsys p d (Answering [] []) [])
| binv_send p rest todo done d buf line kept pre b bs : bsending p rest todo done ->
    Forall2 one_block todo bs -> bodies = pre ++ b :: bs -> results pre done -> awaits line (buf ++ d ++ rest) kept b ->
    binv bodies (mk_bsys p d (Reading buf line kept) [])
| binv_hear p c got r u todo done pre b bs : getting p got todo done -> speaking c r ->
    Forall2 one_block todo bs -> bodies = pre ++ b :: bs -> results pre done -> got ++ u ++ r = answer b ->
    binv bodies (mk_bsys p [] c u).

Lemma body_case h n g rest todo done b : good b -> length h = 8%nat -> unpack_q h = n -> (n < 0 \/ Z.of_nat (length g) <= n)%Z -> h ++ g ++ rest = answer b ->
  (getting (body_got n g todo done) (h ++ g) todo done) \/ (body_got n g todo done = BIdle todo (done ++ [g]) /\ rest = [] /\ framed (answer b) g).
Proof.
  intros Hg Lh En Hn Ea. unfold body_got. destruct (Z.eqb_spec (Z.of_nat (length g)) n) as [E|E].
  - right. split; [reflexivity|]. destruct Hg as [(r & h' & Er & An)|(h' & z & r & Er & An & Hz)]; destruct (announces_unpack _ _ An) as [L' U'].
    + rewrite Er in Ea. destruct (app_cut _ _ _ _ (eq_trans Lh (eq_sym L')) Ea) as [-> Eg]. assert (Lr : length r = length g) by lia.
      rewrite <- (app_nil_r r) in Eg. destruct (app_cut _ _ _ _ (eq_sym Lr) Eg) as [-> ->]. split; [reflexivity|]. exists h'. split; [exact Er|exact An].
    + exfalso. rewrite Er in Ea. destruct (app_cut _ _ _ _ (eq_trans Lh (eq_sym L')) Ea) as [-> Eg]. assert (length r = length g + length rest)%nat by (rewrite <- Eg; apply app_length). lia.
  - left. constructor; [exact Lh|exact En|]. lia.
Qed.
Lemma body_long n (g : str) : (n < 0 \/ Z.of_nat (length g) < n)%Z -> forall x, (n < 0 \/ Z.of_nat (length (g ++ [x])) <= n)%Z.
Proof. intros [H|H] x; [now left|right]. rewrite app_length. cbn [length]. lia. Qed.
Lemma head_case x got rest todo done b : good b -> (length got < 8)%nat -> got ++ (x :: rest) = answer b ->
  getting (head_got (got ++ [x]) todo done) (got ++ [x]) todo done \/ exists r, head_got (got ++ [x]) todo done = BIdle todo (done ++ [r]) /\ rest = [] /\ framed (answer b) r.
Proof.
  intros Hg L Ea. assert (Ea' : (got ++ [x]) ++ [] ++ rest = answer b) by (now rewrite <- app_assoc). unfold head_got. destruct (Nat.eqb_spec (length (got ++ [x])) 8) as [E|E].
  - assert (Hb : (unpack_q (got ++ [x]) < 0 \/ Z.of_nat (length (@nil N)) <= unpack_q (got ++ [x]))%Z) by (cbn [length]; lia).
    destruct (body_case (got ++ [x]) _ [] rest todo done b Hg E eq_refl Hb Ea') as [H|H]; [left; now rewrite app_nil_r in H|right; eauto].
  - left. constructor. rewrite app_length in *. cbn [length] in *. lia.
Qed.
Lemma body_next x h n g rest todo done b : good b -> length h = 8%nat -> unpack_q h = n -> (n < 0 \/ Z.of_nat (length g) < n)%Z -> (h ++ g) ++ (x :: rest) = answer b ->
  getting (body_got n (g ++ [x]) todo done) ((h ++ g) ++ [x]) todo done \/ exists r, body_got n (g ++ [x]) todo done = BIdle todo (done ++ [r]) /\ rest = [] /\ framed (answer b) r.
Proof.
  intros Hg Lh En Hn Ea. assert (Ea' : h ++ (g ++ [x]) ++ rest = answer b) by (rewrite <- Ea, <- !app_assoc; reflexivity).
  destruct (body_case h n (g ++ [x]) rest todo done b Hg Lh En (body_long n g Hn x) Ea') as [H|H]; [left; now rewrite <- app_assoc|right; eauto].
Qed.

Lemma taken_body line i kept b : awaits line (10 :: i) kept b -> blank_line (line ++ [10]) = true -> kept = b /\ i = [].
Proof.
  intros H E. destruct (awaits_taken _ _ _ _ H) as [[C _]|(_ & -> & ls & _ & Ek & Eb & _)]; [congruence|]. split; [|reflexivity].
  cbn [app] in Ek, Eb. apply app_inj_tail in Ek as [-> _]. exact Eb.
Qed.
Lemma results_more pre done b r : results pre done -> framed (answer b) r -> results (pre ++ [b]) (done ++ [r]).
Proof. intros H F. apply Forall2_app; [exact H|]. now repeat constructor. Qed.

Lemma binv_step bodies s t : Forall good bodies -> binv bodies s -> bstep answer cd cu s t -> binv bodies t.
Proof.
  intros HG I St. destruct I as [todo done pre bs c Hc Hf Hb Hr | p rest todo done d pre b bs Hp Hf Hb Hr Ha
    | p rest todo done d buf line kept pre b bs Hp Hf Hb Hr Ha | p c got r u todo done pre b bs Hp Hc Hf Hb Hr Hh].
  - inversion St; subst.
    + inversion Hf; subst. destruct Hc as [->|[_ ->]].
      * eapply binv_send_rested; eauto; [left; reflexivity|]. cbn. now apply awaits_start.
      * eapply binv_send; eauto; [left; reflexivity|]. cbn. now apply awaits_start.
    + match goal with H : [] = _ ++ _ |- _ => symmetry in H; apply app_eq_nil in H as [-> _] end. congruence.
    + destruct Hc as [Hc|[_ Hc]]; discriminate.
    + destruct Hc as [Hc|[_ Hc]]; discriminate.
    + destruct Hc as [Hc|[_ Hc]]; discriminate.
    + destruct Hc as [Hc|[_ Hc]]; [|discriminate]. inversion Hc; subst. eapply binv_idle; eauto. right. auto.
  - inversion St; subst; try (destruct Hp as [Hp|[-> Hp]]; inversion Hp; subst).
    + eapply binv_send_rested; eauto; [left; reflexivity|]. now rewrite <- app_assoc.
    + eapply binv_send_rested; eauto. right. auto.
    + eapply binv_send; eauto; left; reflexivity.
    + eapply binv_send; eauto. right. auto.
  - inversion St; subst.
    + destruct Hp as [Hp|[_ Hp]]; discriminate.
    + destruct Hp as [Hp|[-> Hp]]; inversion Hp; subst. eapply binv_send; eauto; [left; reflexivity|]. now rewrite <- app_assoc.
    + destruct Hp as [Hp|[-> Hp]]; inversion Hp; subst. eapply binv_send; eauto. right. auto.
    + eapply binv_send; eauto. cbn [app] in Ha. now rewrite <- app_assoc in Ha.
    + eapply binv_send; eauto. cbn [app] in Ha. now apply awaits_take.
    + cbn [app] in Ha. unfold btaken. destruct (blank_line (line ++ [10])) eqn:Eb.
      * destruct (taken_body _ _ _ _ Ha Eb) as [-> He]. apply app_eq_nil in He as [-> He]. apply app_eq_nil in He as [-> ->].
        apply binv_hear with (got := []) (r := answer b) (todo := todo) (done := done) (pre := pre) (b := b) (bs := bs); auto; [|left; reflexivity]. destruct Hp as [->|[_ ->]]; constructor. cbn. lia.
      * destruct (awaits_taken _ _ _ _ Ha) as [[_ Hn]|[C _]]; [|congruence]. eapply binv_send; eauto.
  - assert (Hg : good b) by (rewrite Forall_forall in HG; apply HG; subst bodies; rewrite in_app_iff; right; now left).
    inversion St; subst.
    + inversion Hp.
    + inversion Hp.
    + inversion Hp; subst. eapply binv_hear with (got := []); eauto. constructor. cbn. lia.
    + inversion Hp; subst. destruct (head_case x got (u0 ++ r) todo done b Hg ltac:(assumption) Hh) as [H|(r' & -> & E0 & F)].
      * eapply binv_hear; eauto. now rewrite <- app_assoc.
      * apply app_eq_nil in E0 as [-> ->]. eapply binv_idle with (pre := pre ++ [b]); eauto; [now rewrite <- app_assoc|]. now apply results_more.
    + inversion Hp; subst. match goal with L : length ?h = 8%nat, H : (_ \/ _)%Z |- _ => destruct (body_next x h _ _ (u0 ++ r) todo done b Hg L eq_refl H Hh) as [H'|(r' & -> & E0 & F)] end.
      * eapply binv_hear; eauto. now rewrite <- app_assoc.
      * apply app_eq_nil in E0 as [-> ->]. eapply binv_idle with (pre := pre ++ [b]); eauto; [now rewrite <- app_assoc|]. now apply results_more.
    + match goal with H : [] = _ ++ _ |- _ => symmetry in H; apply app_eq_nil in H as [-> _] end. congruence.
    + destruct Hc as [Hc|[_ Hc]]; discriminate.
    + destruct Hc as [Hc|[_ Hc]]; discriminate.
    + destruct Hc as [Hc|[_ Hc]]; [|discriminate]. inversion Hc; subst. eapply binv_hear; eauto; [left; reflexivity|]. now rewrite <- app_assoc.
    + destruct Hc as [Hc|[_ Hc]]; [|discriminate]. inversion Hc; subst. eapply binv_hear; eauto. right. auto.
Qed.
Lemma binv_runs ms bodies s : Forall good bodies -> Forall2 one_block ms bodies -> bruns answer cd cu (bstart ms) s -> binv bodies s.
Proof.
  intros HG H R. induction R as [|t u R IH St]; [|eapply binv_step; eauto]. eapply binv_idle with (pre := []); eauto; [right; auto|constructor].
Qed.
Lemma binv_finished bodies s r : binv bodies s -> bfinished s r -> results bodies r.
Proof.
  unfold bfinished. intros I E. destruct I as [todo done pre bs c Hc Hf Hb Hr | p rest todo done d pre b bs Hp Hf Hb Hr Ha
    | p rest todo done d buf line kept pre b bs Hp Hf Hb Hr Ha | p c got x u todo done pre b bs Hp Hc Hf Hb Hr Hh]; cbn [b_parent] in E; subst.
  - inversion E; subst. inversion Hf; subst. now rewrite app_nil_r.
  - destruct Hp as [Hp|[_ Hp]]; discriminate.
  - destruct Hp as [Hp|[_ Hp]]; discriminate.
  - inversion Hp.
Qed.
Lemma getting_more p got todo done b r : getting p got todo done -> framed (answer b) r -> got <> answer b \/ p = BWriting [] todo done.
Proof.
  intros G (h & E & An). destruct (announces_unpack _ _ An) as [L U]. destruct G as [todo done|g todo done H|h' g n todo done Lh En Hn]; [now right|left|left]; intros C; rewrite E in C.
  - apply (f_equal (@length N)) in C. rewrite app_length in C. lia.
  - destruct (app_cut _ _ _ _ (eq_trans Lh (eq_sym L)) C) as [-> ->]. lia.
Qed.
Lemma binv_progress bodies s : 0 < cd -> 0 < cu -> Forall (fun b => exists r, framed (answer b) r) bodies -> binv bodies s ->
  (exists r, bfinished s r) \/ exists t, bstep answer cd cu s t.
Proof.
  intros C1 C2 HG I. destruct I as [todo done pre bs c Hc Hf Hb Hr | p rest todo done d pre b bs Hp Hf Hb Hr Ha
    | p rest todo done d buf line kept pre b bs Hp Hf Hb Hr Ha | p c got x u todo done pre b bs Hp Hc Hf Hb Hr Hh].
  - destruct todo as [|m todo]; [left; eexists; reflexivity|right; eexists; constructor].
  - right. eexists. apply bs_answered.
  - right. destruct buf as [|y buf].
    + destruct d as [|y d].
      * destruct Hp as [->|[-> ->]]; [|destruct (awaits_nonempty _ _ _ Ha)]. destruct rest as [|y rest]; [destruct (awaits_nonempty _ _ _ Ha)|]. eexists. apply bs_write. cbn. lia.
      * eexists. apply bs_fill with (a := y :: d) (b := []); [discriminate|]. now rewrite app_nil_r.
    + destruct (N.eq_dec y 10) as [->|Ny]; eexists; [apply bs_taken|apply bs_take; exact Ny].
  - right. assert (Hb' : exists r, framed (answer b) r) by (rewrite Forall_forall in HG; apply HG; subst bodies; rewrite in_app_iff; right; now left). destruct Hb' as [r F].
    destruct (getting_more p got todo done b r Hp F) as [Ne| ->]; [|eexists; apply bs_written]. destruct u as [|y u].
    + destruct Hc as [->|[-> ->]]; [|exfalso; apply Ne; rewrite <- Hh; cbn; now rewrite app_nil_r].
      destruct x as [|y x]; [exfalso; apply Ne; rewrite <- Hh; cbn; now rewrite app_nil_r|]. eexists. apply bs_answer. cbn. lia.
    + destruct Hp; [eexists; apply bs_written|eexists; apply bs_head|eexists; apply bs_body].
Qed.
End Session.

Lemma framed_fun a r r' : framed a r -> framed a r' -> r = r'.
Proof.
  intros (h & E & An) (h' & E' & An'). destruct (announces_unpack _ _ An) as [L _]. destruct (announces_unpack _ _ An') as [L' _]. rewrite E in E'.
  now destruct (app_cut _ _ _ _ (eq_trans L (eq_sym L')) E').
Qed.

(** *** With answers of the announced length, whatever their octets, no deadlock, and every call
    returns the answer to its own message. *)
Theorem C126_session : forall answer cd cu ms bodies replies s, 0 < cd -> 0 < cu -> Forall2 one_block ms bodies ->
  Forall2 (fun b r => framed (answer b) r) bodies replies -> bruns answer cd cu (bstart ms) s ->
  (bfinished s replies \/ exists t, bstep answer cd cu s t) /\ (forall rs, bfinished s rs -> rs = replies).
Proof.
  intros answer cd cu ms bodies replies s C1 C2 Hm Hr R.
  assert (HF : Forall (fun b => exists r, framed (answer b) r) bodies) by (clear - Hr; induction Hr; constructor; eauto).
  assert (HG : Forall (good answer) bodies) by (eapply Forall_impl; [|exact HF]; intros b H; now left).
  pose proof (binv_runs answer cd cu ms bodies s HG Hm R) as I.
  assert (U : forall rs, bfinished s rs -> rs = replies).
  { intros rs F. pose proof (binv_finished answer bodies s rs I F) as H. clear - H Hr. revert rs H. induction Hr as [|b r bs rs' H1 H2 IH]; intros rs H; inversion H; subst; [reflexivity|].
    f_equal; [eapply framed_fun; eauto|now apply IH]. }
  split; [|exact U]. destruct (binv_progress answer cd cu bodies s C1 C2 HF I) as [[rs F]|H]; [left|now right]. now rewrite <- (U rs F).
Qed.
Print Assumptions C126_session.

(** *** After an answer that announces more than follows, or a negative length, no session
    finishes: the call waits for octets that do not come. *)
Theorem C126_overstated : forall answer cd cu ms bodies s rs, Forall2 one_block ms bodies ->
  Forall (fun b => (exists r, framed (answer b) r) \/ overstated (answer b)) bodies -> Exists (fun b => overstated (answer b)) bodies ->
  bruns answer cd cu (bstart ms) s -> ~ bfinished s rs.
Proof.
  intros answer cd cu ms bodies s rs Hm HG HE R F. pose proof (binv_finished answer bodies s rs (binv_runs answer cd cu ms bodies s HG Hm R) F) as H.
  apply Exists_exists in HE as (b & Hb & h & z & r & E & An & Hz). clear - H Hb E An Hz. induction H as [|b' r' bs rs H1 H2 IH]; [destruct Hb|]. destruct Hb as [->|Hb]; [|now apply IH].
  destruct H1 as (h' & E' & An'). destruct (announces_unpack _ _ An) as [L U]. destruct (announces_unpack _ _ An') as [L' U']. rewrite E in E'.
  destruct (app_cut _ _ _ _ (eq_trans L (eq_sym L')) E') as [-> ->]. lia.
Qed.
Print Assumptions C126_overstated.

(** Bodies of headers without a newline are such messages (C86_headers).  An answer may have
    blank lines in it, or be empty: *)
Definition echo_twice (b : str) : str := let r := b ++ [10; 10] ++ b in eight (lenN r) ++ r.
Lemma announces_eight n : n < 2 ^ 63 -> announces (eight n) (Z.of_N n).
Proof.
  intros H. change (2 ^ 63) with 9223372036854775808 in H. unfold announces. change (2 ^ 63)%Z with 9223372036854775808%Z. change (2 ^ 64)%Z with 18446744073709551616%Z.
  split; [lia|]. rewrite Z.mod_small by lia. now rewrite N2Z.id.
Qed.
Example C126_case : let m := lit "GET / HTTP/1.1" ++ [13; 10] in
  one_block (m ++ [13; 10]) m /\ framed (echo_twice m) (m ++ [10; 10] ++ m) /\
  framed (eight 0) [] /\ announces (eight 5) 5 /\ overstated (eight 5 ++ lit "abcd") /\ overstated [255; 255; 255; 255; 255; 255; 255; 255].
Proof.
  cbv zeta. split; [|split; [|split; [|split; [|split]]]].
  - exists [lit "GET / HTTP/1.1" ++ [13]], [13]. split; [reflexivity|]. split; [reflexivity|]. split; [|split; [cbn; intuition discriminate|now repeat constructor]].
    constructor; [|constructor]. split; [cbn; intuition discriminate|]. exists 71. split; [now left|reflexivity].
  - eexists. split; [reflexivity|]. rewrite <- nat_N_Z. now apply announces_eight.
  - exists (eight 0). split; [reflexivity|]. now apply (announces_eight 0).
  - now apply (announces_eight 5).
  - exists (eight 5), 5%Z, (lit "abcd"). split; [reflexivity|]. split; [now apply (announces_eight 5)|right; reflexivity].
  - exists [255; 255; 255; 255; 255; 255; 255; 255], (-1)%Z, []. split; [reflexivity|]. split; [split; [lia|reflexivity]|left; reflexivity].
Qed.

(** A whole session, with pipes of one octet: it can be run to its end. *)
Example C126_run_case : exists s, bruns echo_twice 1 1 (bstart [lit "a" ++ [10; 10]]) s /\ bfinished s [lit "a" ++ [10; 10; 10] ++ lit "a" ++ [10]].
Proof.
  assert (R : forall s s', bruns echo_twice 1 1 (bstart [lit "a" ++ [10; 10]]) s -> bstep echo_twice 1 1 s s' -> bruns echo_twice 1 1 (bstart [lit "a" ++ [10; 10]]) s') by (intros s s' H1 H2; eapply bruns_step; eauto).
  assert (G : forall s, bruns echo_twice 1 1 (bstart [lit "a" ++ [10; 10]]) s -> exists s', bruns echo_twice 1 1 (bstart [lit "a" ++ [10; 10]]) s' /\ bfinished s' [lit "a" ++ [10; 10; 10] ++ lit "a" ++ [10]]).
  { intros s. induction (C126_ends echo_twice 1 1 s) as [s _ IH]. intros H.
    assert (O : Forall2 one_block [lit "a" ++ [10; 10]] [lit "a" ++ [10]]).
    { constructor; [|constructor]. exists [lit "a"], []. split; [reflexivity|]. split; [reflexivity|]. split; [|split; [intros []|constructor]]. constructor; [|constructor]. split; [cbn; intuition discriminate|]. exists 97. split; [now left|reflexivity]. }
    assert (F : Forall2 (fun b r => framed (echo_twice b) r) [lit "a" ++ [10]] [lit "a" ++ [10; 10; 10] ++ lit "a" ++ [10]]).
    { constructor; [|constructor]. eexists. split; [reflexivity|]. rewrite <- nat_N_Z. now apply announces_eight. }
    destruct (C126_session echo_twice 1 1 _ _ _ s ltac:(lia) ltac:(lia) O F H) as [[E|(t & St)] _]; [now exists s|]. apply (IH t St). now apply (R s). }
  apply (G (bstart [lit "a" ++ [10; 10]])). constructor.
Qed.
