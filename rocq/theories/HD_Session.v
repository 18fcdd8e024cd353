(** * headerdiff: messages and sessions. *)
From Coq Require Import String List NArith ZArith Bool Arith Lia ZifyN ZifyNat Permutation.
From Verif Require Import PyBase NBits HTTP2_Int PyStr HD_Model HD_Int HD_Sim HD_Step HD_Spec.
Import ListNotations.
Open Scope N_scope.
Open Scope py_scope.

Lemma plain_strings_ok mx dl t : strings_ok (plain_cfg mx dl t).
Proof.
  intros s bs rest E. cbn in *. destruct (hd_plain_ok s) as (bs' & E' & R).
  assert (bs' = bs) by congruence. subst. apply R.
Qed.

Lemma pack_H_two n s : pack_H n = Ok s -> length s = 2%nat.
Proof. unfold pack_H. destruct (n <? 65536); intros E; [|discriminate]. assert (s = [N.shiftr n 8; N.land n 255]) as -> by congruence. reflexivity. Qed.

Lemma frame_payload data f : hd_frame data = Ok f -> skipn 8 f = data.
Proof.
  unfold hd_frame. intros E. apply bind_ok in E. destruct E as (h & H & E). apply pack_H_two in H.
  assert (f = h ++ [0; 0; 0; 0; 0; 0] ++ data) as -> by congruence.
  destruct h as [|a [|b [|c h]]]; try discriminate. reflexivity.
Qed.

Section Session.
  Variable ord : nat -> list ih -> list ih.
  Hypothesis ord_perm : forall t l, Permutation (ord t l) l.
  Variable cfg : hcfg.
  Hypothesis Hstr : strings_ok cfg.

  Lemma encode_list_ok q hs : forall e d e' s, hsim cfg e d -> encode_list ord cfg q e hs = (e', Ok s) ->
    exists d' hs', (forall rest, decode_list cfg q (length hs) d (s ++ rest) = (d', Ok (hs', rest))) /\ hsim cfg e' d' /\
      Forall2 same_text hs hs' /\ (forall x, In x hs' -> In x hs \/ In x (hd_tbl d)) /\
      (forall x, In x (hd_tbl d') -> In x hs \/ In x (hd_tbl d)).
  Proof.
    induction hs as [|[n v] hs IH]; intros e d e' s Hs E; cbn [encode_list] in E.
    - assert (e' = e /\ s = []) as [-> ->] by (split; congruence). exists d, [].
      split; [reflexivity|]. split; [exact Hs|]. split; [constructor|]. cbn. auto.
    - destruct (encode_one ord cfg q e (n, v)) as [e1 [s1|]] eqn:E1; [|discriminate].
      destruct (encode_list ord cfg q e1 hs) as [e2 r2] eqn:E2.
      assert (e2 = e') by congruence. subst e2. apply (f_equal snd) in E. cbn [snd] in E.
      apply bind_ok in E. destruct E as (s2 & -> & E). assert (s = s1 ++ s2) as -> by congruence. clear E.
      destruct (encode_one_ok ord ord_perm cfg Hstr _ _ _ _ _ _ _ Hs E1) as (d1 & h' & D1 & S1 & T1 & I1 & J1).
      destruct (IH _ _ _ _ S1 E2) as (d2 & hs' & D2 & S2 & T2 & I2 & J2).
      exists d2, (h' :: hs'). split; [|split; [exact S2|split; [|split]]].
      + intros rest. cbn [length decode_list]. rewrite <- app_assoc, D1, D2. reflexivity.
      + constructor; [symmetry; exact T1|exact T2].
      + intros x [<-|Hx]; cbn.
        * destruct I1 as [->|]; auto.
        * destruct (I2 x Hx) as [|Hx']; auto. destruct (J1 x Hx') as [->|]; auto.
      + intros x Hx; cbn. destruct (J2 x Hx) as [|Hx']; auto. destruct (J1 x Hx') as [->|]; auto.
  Qed.

  Lemma encode_msg_ok q hs e d e' f : hsim cfg e d -> hd_encode ord cfg q e hs = (e', Ok f) ->
    exists d' hs', hd_decode cfg q d f = (d', Ok hs') /\ hsim cfg e' d' /\
      Forall2 same_text hs hs' /\ (forall x, In x hs' -> In x hs \/ In x (hd_tbl d)) /\
      (forall x, In x (hd_tbl d') -> In x hs \/ In x (hd_tbl d)).
  Proof.
    intros Hs. unfold hd_encode, hd_payload.
    destruct (pack_B (lenN hs)) as [nb|] eqn:P; [|discriminate].
    set (e0 := set_e_tbl e (map grow_age (he_tbl e)) (he_size e)).
    destruct (encode_list ord cfg q e0 hs) as [e1 r1] eqn:E1.
    intros E. assert (e1 = e') by congruence. subst e1. apply (f_equal snd) in E. cbn [snd] in E.
    apply bind_ok in E. destruct E as (data & E & Fr).
    apply bind_ok in E. destruct E as (s & -> & E). assert (data = nb ++ s) as -> by congruence.
    assert (Hs0 : hsim cfg e0 d).
    { destruct Hs as [T S M R1 R2]. split; cbn; auto. apply tsim_map; auto. }
    destruct (encode_list_ok _ _ _ _ _ _ Hs0 E1) as (d' & hs' & D & S' & T & I & J).
    exists d', hs'. split; [|auto].
    unfold hd_decode. rewrite (frame_payload _ _ Fr). unfold hd_decode_payload.
    unfold pack_B in P. destruct (N.ltb_spec (lenN hs) 256); [|discriminate].
    assert (nb = [lenN hs]) as -> by congruence. cbn [app hd_byte].
    unfold lenN. rewrite Nat2N.id. specialize (D []). rewrite app_nil_r in D. rewrite D. reflexivity.
  Qed.

  Lemma session_ok ms : forall e d e' fs, hsim cfg e d -> enc_all ord cfg e ms = (e', Ok fs) ->
    exists d' rs, dec_all cfg d (wire ms fs) = (d', map Ok rs) /\ hsim cfg e' d' /\
      Forall2 (Forall2 same_text) (map snd ms) rs /\
      (forall x, In x (concat rs) -> In x (all_headers ms) \/ In x (hd_tbl d)).
  Proof.
    induction ms as [|[q hs] ms IH]; intros e d e' fs Hs E; cbn [enc_all] in E.
    - assert (e' = e /\ fs = []) as [-> ->] by (split; congruence). exists d, [].
      split; [reflexivity|]. split; [exact Hs|]. split; [constructor|]. cbn. tauto.
    - destruct (hd_encode ord cfg q e hs) as [e1 [f|]] eqn:E1; [|discriminate].
      destruct (enc_all ord cfg e1 ms) as [e2 [fs'|]] eqn:E2; [|discriminate].
      assert (e2 = e' /\ fs = f :: fs') as [-> ->] by (split; congruence). clear E.
      destruct (encode_msg_ok _ _ _ _ _ _ Hs E1) as (d1 & hs1 & D1 & S1 & T1 & I1 & J1).
      destruct (IH _ _ _ _ S1 E2) as (d2 & rs & D2 & S2 & T2 & I2).
      exists d2, (hs1 :: rs). split; [|split; [exact S2|split; [now constructor|]]].
      + unfold wire. cbn [map fst combine dec_all]. rewrite D1.
        unfold wire in D2. rewrite D2. reflexivity.
      + intros x Hx. cbn [concat] in Hx. unfold all_headers. cbn [flat_map snd].
        apply in_app_or in Hx. destruct Hx as [Hx|Hx].
        * destruct (I1 x Hx); auto. left. apply in_or_app. now left.
        * destruct (I2 x Hx) as [|Hx']; [left; apply in_or_app; now right|].
          destruct (J1 x Hx'); auto. left. apply in_or_app. now left.
  Qed.
End Session.

(** ** The initial states *)
Definition names_check (l : list str) : bool :=
  Nat.eqb (length (name_dict l)) (length l) &&
  forallb (fun '(n, i) => match nth_error l i with Some m => str_eqb m n | None => false end) (name_dict l).
Lemma names_check_ok l : names_check l = true -> nsim (name_dict l) l.
Proof.
  unfold names_check. rewrite andb_true_iff. intros [H1 H2]. apply Nat.eqb_eq in H1. split; [exact H1|].
  intros n i Hd. apply dget_in in Hd. rewrite forallb_forall in H2. specialize (H2 _ Hd). cbv beta iota in H2.
  destruct (nth_error l i) as [m|]; [|discriminate]. destruct (str_eqb_spec m n); [congruence|discriminate].
Qed.

Lemma hsim_new cfg : (0 <= h_max cfg)%Z -> hsim cfg henc_new hdec_new.
Proof.
  intros H. split; cbn [henc_new hdec_new he_tbl hd_tbl he_size hd_size he_req he_res hd_req hd_res].
  - split; cbn; [reflexivity|contradiction|constructor|constructor].
  - reflexivity.
  - exact H.
  - apply names_check_ok. vm_compute. reflexivity.
  - apply names_check_ok. vm_compute. reflexivity.
Qed.

(** ** Table agreement and sizes *)
Lemma in_combine_seq {A} (l : list A) : forall k i x, In (i, x) (combine (seq k (length l)) l) <-> (k <= i)%nat /\ nth_error l (i - k) = Some x.
Proof.
  induction l as [|y l IH]; intros k i x; cbn [length seq combine In].
  - split; [contradiction|]. intros [_ H]. destruct (i - k)%nat; discriminate.
  - split.
    + intros [[= <- <-]|H]; [split; [lia|]; now rewrite Nat.sub_diag|].
      apply IH in H. destruct H as [H1 H2]. split; [lia|].
      replace (i - k)%nat with (S (i - S k)) by lia. exact H2.
    + intros [H1 H2]. destruct (Nat.eq_dec k i) as [->|Hne].
      * left. rewrite Nat.sub_diag in H2. cbn in H2. congruence.
      * right. apply IH. split; [lia|]. replace (i - k)%nat with (S (i - S k)) in H2 by lia. exact H2.
Qed.

Lemma map_fst_combine_seq {A} (l : list A) k : map fst (combine (seq k (length l)) l) = seq k (length l).
Proof. revert k. induction l as [|x l IH]; intros k; cbn; [reflexivity|]. now rewrite IH. Qed.
Lemma NoDup_map_inv' {A B} (f : A -> B) l : NoDup (map f l) -> NoDup l.
Proof. apply NoDup_map_inv. Qed.

Lemma tsim_agree te td : tsim te td ->
  Permutation (map (fun h => (i_index h, (i_name h, i_value h))) te) (combine (seq 0 (length td)) td).
Proof.
  intros [L N K I].
  apply NoDup_Permutation_bis.
  - apply (NoDup_map_inv fst). rewrite map_map. cbn. exact I.
  - rewrite map_length, combine_length, seq_length. lia.
  - intros [i x] Hx. apply in_map_iff in Hx. destruct Hx as (h & E & Hh). apply in_combine_seq. split; [lia|].
    rewrite Nat.sub_0_r. assert (i = i_index h /\ x = (i_name h, i_value h)) as [-> ->] by (split; congruence). auto.
Qed.

(** ** The decoder on arbitrary input *)
Lemma held_app a b : held (a ++ b) = (held a + held b)%Z.
Proof. induction a as [|h a IH]; cbn [app held fold_right]; [reflexivity|]. unfold held in *. rewrite IH. lia. Qed.
Lemma held_cons h l : held (h :: l) = (zlen (snd h) + held l)%Z.
Proof. reflexivity. Qed.
Lemma held_nonneg l : (0 <= held l)%Z.
Proof. induction l as [|h l IH]; cbn [held fold_right]; [lia|]. fold (held l). unfold zlen. lia. Qed.
Lemma held_in h l : In h l -> (zlen (snd h) <= held l)%Z.
Proof.
  induction l as [|x l IH]; [contradiction|]. intros [->|H]; unfold held in *; cbn [fold_right].
  - pose proof (held_nonneg l) as P. unfold held in P. lia.
  - specialize (IH H). pose proof (Zle_0_nat (length (snd x))). unfold zlen at 2. lia.
Qed.
Lemma held_update i h l y : nth_error l i = Some h -> held (update_nth i (fun _ => y) l) = (held l + (zlen (snd y) - zlen (snd h)))%Z.
Proof.
  intros E. apply nth_error_split in E. destruct E as (a & b & -> & <-). rewrite update_nth_split.
  rewrite !held_app, !held_cons. lia.
Qed.

Lemma decode_name_tbl cfg q d b p sb s d' r : decode_name cfg q d b p sb s = (d', r) ->
  hd_tbl d' = hd_tbl d /\ hd_size d' = hd_size d.
Proof.
  unfold decode_name. destruct (0 <? N.land b 64).
  { intros E. assert (d' = d) by congruence. now subst. }
  destruct (hd_read_int b p s) as [[ref s']|].
  2: { intros E. assert (d' = d) by congruence. now subst. }
  destruct (ref =? 0).
  - destruct (hd_literal cfg s') as [[n s2]|].
    + intros E. assert (d' = add_d_name q d n) by congruence. subst. unfold add_d_name. destruct q; auto.
    + intros E. assert (d' = d) by congruence. now subst.
  - intros E. assert (d' = d) by congruence. now subst.
Qed.

Definition lits_bounded (cfg : hcfg) : Prop := forall s v n, h_read cfg s = Ok (v, n) -> (length v <= length s)%nat.

Lemma hd_read_digits_shrinks s : forall b v f x r, hd_read_digits b v f s = Ok (x, r) -> (length r <= length s)%nat.
Proof.
  induction s as [|c s IH]; intros b v f x r; cbn [hd_read_digits]; destruct (0 <? N.land b 128); intros E.
  - discriminate.
  - assert (r = []) as -> by congruence. auto.
  - apply IH in E. cbn [length]. lia.
  - assert (r = c :: s) as -> by congruence. auto.
Qed.
Lemma hd_byte_shrinks s b r : hd_byte s = Ok (b, r) -> (length r <= length s)%nat.
Proof. destruct s; cbn; intros E; [discriminate|]. assert (r = s) as -> by congruence. lia. Qed.
Lemma hd_read_int_shrinks b p s v r : hd_read_int b p s = Ok (v, r) -> (length r <= length s)%nat.
Proof.
  unfold hd_read_int. intros E. apply bind_ok in E. destruct E as (m & _ & E).
  apply bind_ok in E. destruct E as ([v1 s1] & E1 & E).
  assert (H1 : (length s1 <= length s)%nat).
  { destruct (p <=? 8).
    - assert (s1 = s) as -> by congruence. auto.
    - apply bind_ok in E1. destruct E1 as (m8 & _ & E1).
      apply bind_ok in E1. destruct E1 as (mb & _ & E1).
      apply bind_ok in E1. destruct E1 as ([b2 s2] & E2 & E1). apply hd_byte_shrinks in E2.
      assert (s1 = s2) as -> by congruence. auto. }
  destruct (v1 =? m).
  - apply bind_ok in E. destruct E as ([b2 s2] & E2 & E). apply hd_byte_shrinks in E2.
    apply hd_read_digits_shrinks in E. lia.
  - assert (r = s1) as -> by congruence. auto.
Qed.

Lemma plain_bounded mx dl t : lits_bounded (plain_cfg mx dl t).
Proof.
  intros s v n E. cbn in E. unfold hd_read_plain in E. apply bind_ok in E. destruct E as ([k r] & E1 & E).
  apply hd_read_int_shrinks in E1. assert (v = takeN k r) as -> by congruence. rewrite takeN_firstn.
  rewrite firstn_length. lia.
Qed.

Lemma hd_literal_len cfg s v r : lits_bounded cfg -> hd_literal cfg s = Ok (v, r) -> (length v <= length s /\ length r <= length s)%nat.
Proof.
  intros H E. unfold hd_literal in E. apply bind_ok in E. destruct E as ([x n] & E1 & E).
  assert (v = x /\ r = dropN n s) as [-> ->] by (split; congruence). apply H in E1. split; [exact E1|].
  rewrite dropN_skipn, skipn_length. lia.
Qed.

Lemma decode_name_shrinks cfg q d b p sb s d' n ri pl r : lits_bounded cfg ->
  decode_name cfg q d b p sb s = (d', Ok (n, ri, pl, r)) -> (length r <= length s)%nat.
Proof.
  intros HL. unfold decode_name. destruct (0 <? N.land b 64).
  { intros E. apply (f_equal snd) in E. cbn [snd] in E.
    apply bind_ok in E. destruct E as ([a s1] & E1 & E). apply bind_ok in E. destruct E as (h & _ & E).
    apply bind_ok in E. destruct E as ([a2 s2] & E2 & E). apply hd_read_int_shrinks in E1, E2.
    assert (r = s2) as -> by congruence. lia. }
  destruct (hd_read_int b p s) as [[ref s']|] eqn:E1; [|discriminate]. apply hd_read_int_shrinks in E1.
  match goal with |- context [let '(d, r) := ?X in _] => destruct X as [d1 r1] eqn:E2 end.
  intros E. apply (f_equal snd) in E. cbn [snd] in E. apply bind_ok in E. destruct E as ([n1 s1] & -> & E).
  assert (H1 : (length s1 <= length s')%nat).
  { destruct (ref =? 0).
    - destruct (hd_literal cfg s') as [[n2 s2]|] eqn:E3; [|discriminate].
      apply (hd_literal_len _ _ _ _ HL) in E3. assert (s1 = s2) as -> by congruence. lia.
    - apply (f_equal snd) in E2. cbn [snd] in E2. apply bind_ok in E2. destruct E2 as (n2 & _ & E2).
      assert (s1 = s') as -> by congruence. lia. }
  destruct sb.
  - apply bind_ok in E. destruct E as ([a2 s2] & E3 & E). apply hd_read_int_shrinks in E3.
    assert (r = s2) as -> by congruence. lia.
  - assert (r = s1) as -> by congruence. lia.
Qed.

Definition acc_inv (cfg : hcfg) (B : Z) (d : hdec) : Prop :=
  hd_size d = held (hd_tbl d) /\ (hd_size d <= B)%Z.

Lemma decode_one_acc cfg B q d s d' r : lits_bounded cfg -> (2 * h_max cfg + zlen s <= B)%Z ->
  acc_inv cfg B d -> decode_one cfg q d s = (d', r) ->
  acc_inv cfg B d' /\ forall h s', r = Ok (h, s') -> (length s' <= length s)%nat.
Proof.
  intros HL HB [Hh Hb] E. unfold decode_one in E.
  assert (Hsame : forall r0, (d, r0) = (d', r) -> (forall h s', r0 = Ok (h, s') -> (length s' <= length s)%nat) ->
    acc_inv cfg B d' /\ forall h s', r = Ok (h, s') -> (length s' <= length s)%nat).
  { intros r0 E0 Hl. assert (d' = d /\ r = r0) as [-> ->] by (split; congruence). split; [split; auto|exact Hl]. }
  destruct (Z.ltb_spec (h_max cfg) (hd_size d)) as [|Hmx]; [apply (Hsame _ E); discriminate|].
  destruct (hd_byte s) as [[b0 s1]|] eqn:Eb; [|apply (Hsame _ E); discriminate].
  apply hd_byte_shrinks in Eb.
  destruct (0 <? N.land b0 128).
  { apply (Hsame _ E). intros h s' E'. apply bind_ok in E'. destruct E' as ([i s2] & E1 & E').
    apply bind_ok in E'. destruct E' as (h2 & _ & E'). assert (s' = s2) as -> by congruence.
    destruct (0 <? N.land b0 64).
    - apply bind_ok in E1. destruct E1 as ([j s3] & E2 & E1). apply hd_read_int_shrinks in E2.
      assert (s2 = s3) as -> by congruence. lia.
    - assert (s2 = s1) as -> by congruence. lia. }
  destruct (decode_name _ _ _ _ _ _ _) as [d1 [[[[name ri] pl] s2]|]] eqn:En.
  2: { apply decode_name_tbl in En. destruct En as [T S]. assert (d' = d1 /\ r = Err e) as [-> ->] by (split; congruence).
       split; [split; congruence|discriminate]. }
  pose proof (decode_name_shrinks _ _ _ _ _ _ _ _ _ _ _ _ HL En) as Hs2.
  apply decode_name_tbl in En. destruct En as [T S].
  assert (Hsame1 : forall r0, (d1, r0) = (d', r) -> (forall h s', r0 = Ok (h, s') -> (length s' <= length s)%nat) ->
    acc_inv cfg B d' /\ forall h s', r = Ok (h, s') -> (length s' <= length s)%nat).
  { intros r0 E0 Hl. assert (d' = d1 /\ r = r0) as [-> ->] by (split; congruence). split; [split; congruence|exact Hl]. }
  match goal with E : (match ?X with Ok _ => _ | Err _ => _ end) = _ |- _ => destruct X as [[v s3]|] eqn:Ev end;
    [|apply (Hsame1 _ E); discriminate].
  apply bind_ok in Ev. destruct Ev as ([w s4] & El & Ev). apply (hd_literal_len _ _ _ _ HL) in El.
  apply bind_ok in Ev. destruct Ev as (v0 & Ev0 & Ev). assert (v = v0 /\ s3 = s4) as [-> ->] by (split; congruence).
  assert (Hv : (zlen v0 <= h_max cfg + zlen s)%Z).
  { pose proof (held_nonneg (hd_tbl d)). unfold zlen in *.
    destruct (N.land b0 64 =? 64).
    - apply bind_ok in Ev0. destruct Ev0 as (h & Eh & Ev0). unfold at_index in Eh. rewrite nthN_nth in Eh.
      destruct (nth_error (hd_tbl d1) (N.to_nat ri)) as [h0|] eqn:Enth; [|discriminate].
      assert (h = h0) as -> by congruence. apply nth_error_In in Enth. rewrite T in Enth.
      apply held_in in Enth. unfold zlen in Enth. assert (v0 = takeN pl (snd h0) ++ w) as -> by congruence.
      destruct h0 as [hn hv]. cbn [snd] in *. rewrite takeN_firstn, app_length, firstn_length. lia.
    - assert (v0 = w) as -> by congruence. lia. }
  pose proof (held_nonneg (hd_tbl d)) as Hnn.
  destruct (N.land b0 48 =? 48).
  - unfold at_index in E. rewrite nthN_nth in E.
    destruct (nth_error (hd_tbl d1) (N.to_nat ri)) as [h|] eqn:Enth; [|apply (Hsame1 _ E); discriminate].
    pose proof (f_equal fst E) as Ed. pose proof (f_equal snd E) as Er. cbn [fst snd] in Ed, Er. subst d' r.
    split; [|intros h0 s' E0; assert (s' = s4) as -> by congruence; lia].
    split; cbn [set_d_tbl hd_tbl hd_size].
    + rewrite (held_update _ _ _ _ Enth). destruct h as [hn hv]. cbn [snd] in *. rewrite T. lia.
    + rewrite S. destruct h as [hn hv]. cbn [snd] in *. unfold zlen in *. lia.
  - destruct (N.land b0 48 =? 32).
    + pose proof (f_equal fst E) as Ed. pose proof (f_equal snd E) as Er. cbn [fst snd] in Ed, Er. subst d' r.
      split; [|intros h0 s' E0; assert (s' = s4) as -> by congruence; lia].
      split; cbn [set_d_tbl hd_tbl hd_size].
      * rewrite held_app, held_cons. cbn [snd]. change (held []) with 0%Z. rewrite T. lia.
      * rewrite S. lia.
    + apply (Hsame1 _ E). intros h0 s' E0. assert (s' = s4) as -> by congruence. lia.
Qed.

Lemma decode_list_acc cfg B q : lits_bounded cfg -> forall n d s d' r, (2 * h_max cfg + zlen s <= B)%Z ->
  acc_inv cfg B d -> decode_list cfg q n d s = (d', r) -> acc_inv cfg B d'.
Proof.
  intros HL. induction n as [|n IH]; intros d s d' r HB Ha E; cbn [decode_list] in E.
  - assert (d' = d) as -> by congruence. exact Ha.
  - destruct (decode_one cfg q d s) as [d1 r1] eqn:E1.
    destruct (decode_one_acc _ _ _ _ _ _ _ HL HB Ha E1) as [Ha1 Hl].
    destruct r1 as [[h s1]|].
    + specialize (Hl _ _ eq_refl).
      destruct (decode_list cfg q n d1 s1) as [d2 r2] eqn:E2.
      assert (d' = d2) as -> by (destruct r2 as [[? ?]|]; congruence).
      eapply IH; [|exact Ha1|exact E2]. unfold zlen in *. lia.
    + assert (d' = d1) as -> by congruence. exact Ha1.
Qed.

Lemma dec_all_acc cfg B : lits_bounded cfg -> forall fs d d' rs,
  (forall q f, In (q, f) fs -> (2 * h_max cfg + zlen f <= B)%Z) ->
  acc_inv cfg B d -> dec_all cfg d fs = (d', rs) -> acc_inv cfg B d'.
Proof.
  intros HL. induction fs as [|[q f] fs IH]; intros d d' rs HB Ha E; cbn [dec_all] in E.
  - assert (d' = d) as -> by congruence. exact Ha.
  - destruct (hd_decode cfg q d f) as [d1 r1] eqn:E1. destruct (dec_all cfg d1 fs) as [d2 rs2] eqn:E2.
    assert (d' = d2) as -> by congruence.
    eapply IH; [intros q0 f0 H0; apply (HB q0 f0); now right| |exact E2].
    specialize (HB q f (or_introl eq_refl)).
    unfold hd_decode, hd_decode_payload in E1.
    destruct (hd_byte (skipn 8 f)) as [[nb s]|] eqn:Eb.
    + destruct (decode_list cfg q (N.to_nat nb) d s) as [d3 r3] eqn:E3.
      assert (d1 = d3) as -> by (destruct r3 as [[? ?]|]; congruence).
      eapply decode_list_acc; [exact HL| |exact Ha|exact E3].
      apply hd_byte_shrinks in Eb. rewrite skipn_length in Eb. unfold zlen in *. lia.
    + assert (d1 = d) as -> by congruence. exact Ha.
Qed.
