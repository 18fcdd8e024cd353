(** * Totals and TSV: lemmas for C77 - C79. *)
From Coq Require Import String List NArith ZArith QArith Bool Lia Permutation.
From Verif Require Import PyBase PyStr Lib_Model Lib_Spec Lib_Proofs Lib_Session Prop_Lib Run_Model Run_Proofs.
Import ListNotations.
Open Scope N_scope.
Open Scope py_scope.

(** The streams of one direction. *)
Definition of_dir (t : bool) (ss : list stream_desc) : list stream_desc :=
  filter (fun s => Bool.eqb (sd_req s) t) ss.

Lemma eqb_refl_l b t : Bool.eqb b t = true <-> b = t.
Proof. apply Bool.eqb_true_iff. Qed.

Lemma places_in t ss : forall k i, In i (places t k ss) <->
  (k <= i)%nat /\ exists s, nth_error ss (i - k) = Some s /\ sd_req s = t.
Proof.
  induction ss as [|s ss IH]; intros k i; cbn [places].
  - split; [intros []|]. intros (_ & s & E & _). destruct (i - k)%nat; discriminate.
  - assert (H : In i (places t (S k) ss) <-> (k < i)%nat /\ exists s', nth_error ss (i - S k) = Some s' /\ sd_req s' = t).
    { rewrite IH. reflexivity. }
    destruct (Bool.eqb (sd_req s) t) eqn:E; cbn [In]; rewrite H; clear H IH.
    + apply (proj1 (eqb_refl_l _ _)) in E. split.
      * intros [<-|(L & s' & E1 & E2)].
        -- split; [lia|]. exists s. rewrite Nat.sub_diag. split; [reflexivity|exact E].
        -- split; [lia|]. exists s'. replace (i - k)%nat with (S (i - S k)) by lia. split; [exact E1|exact E2].
      * intros (L & s' & E1 & E2). destruct (Nat.eq_dec k i) as [->|Hne]; [now left|right].
        split; [lia|]. exists s'. replace (i - k)%nat with (S (i - S k)) in E1 by lia. auto.
    + assert (sd_req s <> t). { intros H. apply (proj2 (eqb_refl_l _ _)) in H. congruence. }
      split.
      * intros (L & s' & E1 & E2). split; [lia|]. exists s'. replace (i - k)%nat with (S (i - S k)) by lia. split; [exact E1|exact E2].
      * intros (L & s' & E1 & E2). destruct (Nat.eq_dec k i) as [->|Hne].
        -- rewrite Nat.sub_diag in E1. cbn in E1. congruence.
        -- split; [lia|]. exists s'. replace (i - k)%nat with (S (i - S k)) in E1 by lia. auto.
Qed.

Lemma places_nodup t ss : forall k, NoDup (places t k ss).
Proof.
  induction ss as [|s ss IH]; intros k; cbn [places]; [constructor|].
  destruct (Bool.eqb (sd_req s) t); [|apply IH]. constructor; [|apply IH].
  intros H. apply places_in in H. destruct H as [H _]. lia.
Qed.

Lemma places_length t ss : forall k, length (places t k ss) = length (of_dir t ss).
Proof.
  induction ss as [|s ss IH]; intros k; cbn [places of_dir filter]; [reflexivity|].
  fold (of_dir t ss). destruct (Bool.eqb (sd_req s) t); cbn [length]; now rewrite IH.
Qed.

(** Gathering something from the sessions of a direction. *)
Lemma places_gather {A B} t (F : nat -> list A) (G : B -> list A) (R : stream_desc -> B -> Prop) ss : forall k,
  (forall i s, nth_error ss i = Some s -> sd_req s = t -> exists b, R s b /\ F (k + i)%nat = G b) ->
  exists bs, Forall2 R (of_dir t ss) bs /\ flat_map F (places t k ss) = flat_map G bs.
Proof.
  induction ss as [|s ss IH]; intros k H; cbn [places of_dir filter].
  - exists []. split; constructor.
  - destruct (IH (S k)) as (bs & H1 & H2).
    { intros i s' E1 E2. destruct (H (S i) s' E1 E2) as (b & Hb & Eb). exists b. split; [exact Hb|].
      rewrite <- Eb. f_equal. lia. }
    fold (of_dir t ss). destruct (Bool.eqb (sd_req s) t) eqn:E.
    + apply (proj1 (eqb_refl_l _ _)) in E. destruct (H O s eq_refl E) as (b & Hb & Eb). rewrite Nat.add_0_r in Eb.
      exists (b :: bs). split; [now constructor|]. cbn [flat_map]. now rewrite Eb, H2.
    + exists bs. auto.
Qed.

Lemma flat_map_msgs {A} (f : nat -> list A) (g : stream_desc -> list A) t ss : forall k,
  (forall i s, nth_error ss i = Some s -> sd_req s = t -> f (k + i)%nat = g s) ->
  flat_map f (places t k ss) = flat_map g (of_dir t ss).
Proof.
  intros k H. destruct (places_gather t f g (fun s s' => s = s') ss k) as (bs & H1 & ->).
  { intros i s E1 E2. exists s. auto. }
  f_equal. clear -H1. induction H1; congruence.
Qed.

Lemma combine_app {A B} (a : list A) (b : list B) a' b' : length a = length b ->
  combine (a ++ a') (b ++ b') = combine a b ++ combine a' b'.
Proof. revert b. induction a as [|x a IH]; intros [|y b] H; cbn in *; try lia; [reflexivity|]. f_equal. apply IH. lia. Qed.

Lemma ratios_spec_flat isb (F B : nat -> list N) ids :
  (forall i, In i ids -> length (F i) = length (B i)) ->
  flat_map (fun i => ratios_spec isb (F i) (B i)) ids = ratios_spec isb (flat_map F ids) (flat_map B ids) /\
  length (flat_map F ids) = length (flat_map B ids).
Proof.
  unfold ratios_spec. destruct isb; induction ids as [|i ids IH]; intros H; cbn [flat_map].
  - auto.
  - destruct IH as [-> IH]; [intros; apply H; now right|]. rewrite map_app, !app_length, IH, (H i) by now left. auto.
  - auto.
  - destruct IH as [-> IH]; [intros; apply H; now right|].
    rewrite combine_app by (apply H; now left). rewrite !app_length, IH, (H i) by now left. auto.
Qed.

Notation Store := (store (hdict * str)).
Notation sizes_of := (sizes_of (hdict * str)).
Notation ratios_at := (ratios_at (hdict * str)).

(** The store as the sessions of direction [t] see it. *)
Record holds (t : bool) (ss : list stream_desc) (objs : list strm) (st : Store) : Prop := mkHolds {
  h_lists : length (s_lists st) = length ss;
  h_objs : (length ss <= length (s_objs st))%nat;
  h_at : forall i s, nth_error ss i = Some s -> sd_req s = t ->
    nth_error (s_objs st) i = nth_error objs i /\ nth i (s_lists st) [] = sd_msgs s }.

Definition proper (ss : list stream_desc) (objs : list strm) : Prop :=
  forall i s, nth_error ss i = Some s -> exists o, nth_error objs i = Some o /\
    st_msgs o = i /\ st_type o = sd_req s /\ st_name o = sd_name s /\ is_dict (st_sizes o) /\ is_dict (st_ratios o).

Definition total_named (o : strm) : strm := mkStrm (lit "TOTAL") (st_msgs o) (st_type o) (st_sizes o) (st_ratios o).

Lemma print_total_ok o procs ss t objs st st' tr :
  proper ss objs -> holds t ss objs st -> print_total o procs ss t st = Ok (st', tr) ->
  of_dir t ss <> [] /\
  tr_name tr = lit "TOTAL" /\ tr_count tr = length (flat_map sd_msgs (of_dir t ss)) /\
  (exists b obj, print_summary b obj (baseline_of o) procs = Ok (tr_lines tr) /\
     (forall p, list_at (st_sizes obj) p = flat_map (fun id => list_at (sizes_of st id) p) (places t 0 ss)) /\
     (forall p, list_at (st_ratios obj) p = flat_map (fun id => list_at (ratios_at st id) p) (places t 0 ss))) /\
  length (s_lists st') = length (s_lists st) /\ (length ss <= length (s_objs st'))%nat /\
  (forall i, (i < length ss)%nat -> nth_error (s_objs st') i =
     if list_eq_dec Nat.eq_dec (places t 0 ss) [i] then option_map total_named (nth_error (s_objs st) i)
     else nth_error (s_objs st) i) /\
  (forall i s, nth_error ss i = Some s -> sd_req s <> t -> nth i (s_lists st') [] = nth i (s_lists st) []).
Proof.
  intros HP HH E. unfold print_total in E. apply bind_ok in E as ([s1 n] & Et & E).
  assert (Hobj : forall i, In i (places t 0 ss) -> exists s o, nth_error ss i = Some s /\ sd_req s = t /\
     nth_error (s_objs st) i = Some o /\ wf_obj _ st o /\ st_type o = t /\ st_msgs o = i).
  { intros i Hi. apply places_in in Hi. rewrite Nat.sub_0_r in Hi. destruct Hi as (_ & s & Es & Ht).
    destruct (h_at _ _ _ _ HH i s Es Ht) as [A _]. destruct (HP i s Es) as (o' & B & C & D & _ & F & G).
    exists s, o'. split; [exact Es|]. split; [exact Ht|]. split; [now rewrite A|]. split; [|split; [now rewrite D|exact C]].
    split; [|auto]. rewrite C, (h_lists _ _ _ _ HH). apply nth_error_Some. congruence. }
  pose proof (places_nodup t ss 0) as ND. pose proof (places_length t ss 0) as PL.
  remember (places t 0 ss) as ids eqn:Eids.
  unfold total_stream in Et.
  destruct ids as [|i ids]; [discriminate|]. apply bind_ok in Et as ([s2 n2] & Er & Et).
  destruct (Hobj i) as (si & oi & Esi & Hti & Eoi & Wi & Tyi & Mi); [now left|].
  inversion ND as [|? ? Hni ND']; subst x l.
  assert (HF : Forall (fun id => exists o', nth_error (s_objs st) id = Some o' /\ wf_obj _ st o' /\ st_type o' = t /\ st_msgs o' <> st_msgs oi) ids).
  { apply Forall_forall. intros id Hid. destruct (Hobj id) as (s' & o' & A & B & C & D & F & G); [now right|].
    exists o'. repeat split; auto; try apply D. rewrite Mi, G. intros ->. contradiction. }
  destruct (reduce_spec _ t ids st i oi Eoi Wi Tyi HF)
    as (s3 & n3 & o3 & E3 & (news & Enews) & Hn1 & Hn2 & Hn & Hm & Hty & HL & HO & HM & HS & HR).
  assert (s2 = s3 /\ n2 = n3) as [-> ->] by (split; congruence). clear Er.
  assert (En : n = n3) by congruence. subst n.
  assert (Es1 : s1 = mkStore (s_lists s3) (update_nth n3 total_named (s_objs s3))) by (unfold total_named; congruence).
  clear Et. subst s1. cbn [s_objs s_lists] in E. rewrite nth_error_update_same, Hn in E. cbn [option_map total_named st_msgs] in E.
  apply bind_ok in E as (lines & El & E). change (st_name (total_named o3)) with (lit "TOTAL") in E.
  assert (Hst : st' = mkStore (s_lists s3) (update_nth n3 total_named (s_objs s3))) by congruence.
  assert (Htr : tr = mkTR (lit "TOTAL") (match nth_error (s_lists s3) (st_msgs o3) with Some l => length l | None => O end) lines) by congruence.
  clear E. subst st' tr. cbn [tr_name tr_count tr_lines s_lists s_objs].
  split. { intros Z. rewrite Z in PL. discriminate. }
  split; [reflexivity|]. split.
  { assert (Hlt : (st_msgs oi < length (s_lists s3))%nat) by (rewrite HL; apply Wi).
    rewrite Hm. rewrite (nth_error_nth' _ [] Hlt), HM.
    replace (nth (st_msgs oi) (s_lists st) [] ++ flat_map (msgs_of (hdict * str) st) ids)
      with (flat_map (msgs_of (hdict * str) st) (i :: ids)).
    2:{ cbn [flat_map]. f_equal. unfold msgs_of. now rewrite Eoi. }
    f_equal. rewrite Eids. apply flat_map_msgs. intros j s Ej Hj. cbn [Nat.add].
    destruct (h_at _ _ _ _ HH j s Ej Hj) as [A B]. unfold msgs_of. rewrite A.
    destruct (HP j s Ej) as (o' & C & D & _). rewrite C, D. exact B. }
  split.
  { eexists _, _. split; [exact El|]. split; intros p.
    - cbn [total_named st_sizes]. rewrite HS. cbn [flat_map]. f_equal. unfold Lib_Session.sizes_of. now rewrite Eoi.
    - cbn [total_named st_ratios]. rewrite HR. cbn [flat_map]. f_equal. unfold Lib_Session.ratios_at. now rewrite Eoi. }
  split; [exact HL|]. split.
  { rewrite length_update, Enews, app_length. pose proof (h_objs _ _ _ _ HH). lia. }
  split.
  { intros j Hj. pose proof (h_objs _ _ _ _ HH) as Hlen.
    destruct (list_eq_dec Nat.eq_dec (i :: ids) [j]) as [Ej|Ej].
    - assert (i = j /\ ids = []) as [-> ->] by (split; congruence). rewrite (Hn2 eq_refl).
      rewrite nth_error_update_same, Enews, nth_error_app1 by lia. reflexivity.
    - destruct (Nat.eq_dec j n3) as [->|Hne].
      + destruct ids as [|i2 ids]; [rewrite (Hn2 eq_refl) in *; congruence|]. specialize (Hn1 ltac:(discriminate)). lia.
      + rewrite nth_error_update_other by congruence. rewrite Enews, nth_error_app1 by lia. reflexivity. }
  intros j s Ej Hj. apply HO. rewrite Mi. intros ->. congruence.
Qed.
