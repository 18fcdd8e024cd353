(** * http2 codec: sessions, termination, divergence, memory, framing. *)
From Coq Require Import String List NArith ZArith Bool Lia ZifyN Permutation.
From Verif Require Import PyBase NBits HTTP2_Model HTTP2_Int HTTP2_Sim HTTP2_Inv HTTP2_Spec.
Import ListNotations.
Open Scope py_scope.

Ltac Zify.zify_post_hook ::= Z.div_mod_to_equations.

(** ** Initial state *)

Fixpoint nodupb (l : list header) : bool :=
  match l with [] => true | x :: t => negb (existsb (header_eqb x) t) && nodupb t end.

Lemma nodupb_ok l : nodupb l = true -> NoDup l.
Proof.
  induction l as [|x l IH]; simpl; intros H; constructor.
  - apply andb_prop in H as [H _]. apply negb_true_iff in H. intros Hin.
    assert (existsb (header_eqb x) l = true); [|congruence]. apply existsb_exists. exists x.
    split; [auto|]. destruct (header_eqb_spec x x); congruence.
  - apply IH. apply andb_prop in H. tauto.
Qed.

Lemma init_good r : good (init_decoder r).
Proof.
  split.
  - apply nodupb_ok. destruct r; vm_compute; reflexivity.
  - cbn. unfold hdrs. rewrite map_map. cbn. now rewrite map_id.
Qed.

Lemma init_rel r : Rel (init_encoder r) (init_decoder r).
Proof. split; reflexivity. Qed.

Lemma Rel_same c d : Rel c d <-> same_tables c d.
Proof.
  unfold Rel, same_tables. split; intros [H Hs]; (split; [|exact Hs]).
  - revert H. generalize (d_tbl d). induction (c_tbl c) as [|x l IH]; intros [|y l'] H; try discriminate; constructor.
    + unfold view in H. simpl in H. split; congruence.
    + apply IH. simpl in H. congruence.
  - induction H as [|x y l l' [E1 E2] _ IH]; simpl; [reflexivity|]. unfold view at 1 3. now rewrite E1, E2, IH.
Qed.

(** ** Sessions *)

Lemma session_sim fuel max msgs : forall c d c' frames,
  Rel c d -> good d -> encode_all fuel max c msgs = Ok (c', frames) ->
  exists d' outs, decode_all max d frames = (d', Ok outs) /\ Rel c' d' /\ good d' /\
    Forall2 (fun out m => (forall x, In x out <-> In x m) /\ (NoDup m -> Permutation out m)) outs msgs.
Proof.
  induction msgs as [|m msgs IH]; intros c d c' frames HR HG E; cbn [encode_all] in E.
  - injection E as <- <-. exists d, []. simpl. auto.
  - destruct (encode_headers fuel max m c) as [[c1 f]|] eqn:E1; [|discriminate]. cbn [bind] in E.
    destruct (encode_all fuel max c1 msgs) as [[c2 fs]|] eqn:E2; [|discriminate]. cbn [bind] in E.
    injection E as <- <-.
    destruct (message_sim _ _ _ _ _ _ _ HR HG E1) as (d1 & out & D1 & HR1 & HG1 & Hset & Hperm & _).
    destruct (IH _ _ _ _ HR1 HG1 E2) as (d2 & outs & D2 & HR2 & HG2 & HF).
    exists d2, (out :: outs). cbn [decode_all]. rewrite D1, D2. auto 10.
Qed.

(** ** Termination *)

Lemma reencode_pass_total max kept : forall c enc, exists c' bs enc',
  reencode_pass max kept c enc = Ok (c', bs, enc').
Proof.
  induction kept as [|h kept IH]; intros c enc; cbn [reencode_pass]; [eauto|].
  destruct (find_header h (c_tbl c)); [apply IH|].
  destruct (encode_header_total max h c) as (c1 & b & ->). cbn [bind].
  destruct (IH c1 true) as (c2 & b2 & e2 & ->). cbn [bind]. eauto.
Qed.

Lemma steps_incl max K d es d' : steps max K d es d' -> incl es K.
Proof. induction 1; intros x Hx; [destruct Hx|]. destruct Hx as [<-|Hx]; auto. Qed.

Lemma reencode_terminates max K : NoDup K -> (sum_len K <= max)%Z ->
  (forall h, In h K -> is_path h = false) ->
  forall fuel c d Out es0 A B, Rel c d -> Inv K Out d -> d_tbl d = A ++ B ->
  hdrs B = es0 -> incl es0 K -> (length K < fuel + length es0)%nat ->
  exists c' bs, reencode_loop fuel max K true c = Ok (c', bs).
Proof.
  intros HnK HsK HpK. induction fuel as [|f IH]; intros c d Out es0 A B HR HI Et Eb Hi Hlt.
  { exfalso. assert (NoDup es0).
    { rewrite <- Eb. apply (NoDup_app_r (hdrs A)). unfold hdrs. rewrite <- map_app, <- Et. apply HI. }
    pose proof (NoDup_incl_length H Hi). simpl in Hlt. lia. }
  assert (Hcase : K = [] \/ K <> []) by (destruct K; [left|right]; congruence).
  destruct Hcase as [->|HK]; [cbn; eauto|].
  rewrite reencode_loop_S by exact HK.
  destruct (reencode_pass_total max K c false) as (c1 & b1 & enc1 & Ep). rewrite Ep. cbn [bind].
  destruct (reencode_pass_sim max K K (incl_refl K) _ _ _ _ _ _ HR Ep) as (d1 & es1 & HR1 & S1 & D1 & En1 & F1).
  destruct enc1.
  - assert (Hes1 : es1 <> []) by (intros ->; discriminate).
    destruct (steps_suffix max K d es1 d1 S1 HsK) with (Out := Out) (A := A) (B := B) as (A' & B' & Et' & Eb'); auto.
    { intros h Hh. apply HpK. apply (steps_incl _ _ _ _ _ S1). exact Hh. }
    { rewrite Eb. exact Hi. }
    destruct (IH c1 d1 (Out ++ es1) (es0 ++ es1) A' B') as (c2 & b2 & ->); auto.
    + now apply (steps_inv _ _ _ _ _ S1).
    + now rewrite Eb', Eb.
    + intros x Hx. apply in_app_or in Hx as [Hx|Hx]; auto. now apply (steps_incl _ _ _ _ _ S1).
    + rewrite app_length. destruct es1; [congruence|]. simpl in *. lia.
    + cbn [bind]. eauto.
  - assert (E : reencode_loop f max K false c1 = Ok (c1, [])) by (destruct f, K; reflexivity).
    rewrite E. cbn [bind]. eauto.
Qed.

(** Sizes never grow beyond a bound that covers the buffer. *)
Lemma dstep_bound max M h d : (max <= M)%Z -> (0 <= M)%Z ->
  d_size d = sum_len (hdrs (d_tbl d)) -> (d_size d <= M)%Z -> (d_size (dstep max h d) <= M)%Z.
Proof.
  intros HM H0 Hs Hd. unfold dstep. destruct (find_header h (d_tbl d)); [exact Hd|].
  destruct (is_path h); [exact Hd|].
  destruct (append_spec max (new_entry h true true) d Hs) as (pre & post & E & Hs' & Ht).
  cbn zeta in Hs'. rewrite Hs'. destruct Ht as [[-> Hle]|[-> _]]; [|simpl; lia].
  unfold hdrs in *. rewrite map_app, sum_len_app. simpl in *. lia.
Qed.

Lemma dsteps_bound max M K hs : (max <= M)%Z -> (0 <= M)%Z -> forall Out d,
  Inv K Out d -> (d_size d <= M)%Z -> (d_size (dsteps max hs d) <= M)%Z.
Proof.
  intros HM H0. induction hs as [|h hs IH]; intros Out d HI Hd; [exact Hd|].
  simpl. apply (IH (Out ++ [h])); [now apply dstep_inv|].
  apply dstep_bound; auto. apply HI.
Qed.

Lemma encode_bytes_only_errors fuel max hs c e : encode_headers fuel max hs c = Err e ->
  e = StructError \/ e = Diverge.
Proof.
  unfold encode_headers. destruct (compute_diff hs (c_tbl c)) as [[[removed kept] remaining] t].
  destruct (encode_removed_total removed (mkEnc (update_encoder_table t) (c_size c))) as (c1 & b1 & ->). cbn [bind].
  destruct (encode_remaining_total max remaining c1) as (c2 & b2 & ->). cbn [bind].
  assert (HL : forall f c enc e, reencode_loop f max kept enc c = Err e -> e = Diverge).
  { clear. intros f. induction f as [|f IH]; intros c enc e; destruct kept as [|k K]; cbn [reencode_loop]; try discriminate.
    - destruct enc; congruence.
    - destruct enc; [|discriminate].
      destruct (reencode_pass_total max (k :: K) c false) as (c' & b & enc' & ->). cbn [bind].
      destruct (reencode_loop f max (k :: K) enc' c') as [[c2 b2]|] eqn:E; cbn [bind]; [discriminate|].
      apply IH in E. congruence. }
  destruct (reencode_loop fuel max kept true c2) as [[c3 b3]|e'] eqn:El; cbn [bind].
  - unfold frame_header, pack_H. destruct (lenN (b1 ++ b2 ++ b3) <? 65536)%N; cbn [bind]; [discriminate|]. intros H. injection H as <-. auto.
  - intros H. injection H as <-. right. eapply HL; eauto.
Qed.

(** A message none of whose referenced headers is a ':path'. *)
Lemma message_terminates fuel max hs c d : (length hs < fuel)%nat -> Rel c d -> good d -> (d_size d <= max)%Z ->
  (forall h, In h hs -> reffed (c_tbl c) h -> is_path h = false) ->
  encode_headers fuel max hs c <> Err Diverge.
Proof.
  intros Hfuel HR HG Hsz Hp E. rewrite encode_headers_body in E.
  destruct (prefix_phase max hs c d HR HG) as (kept & remaining & c1 & d1 & b12 & EE & HR1 & HI1 & HnK & Hperm & HK & _).
  rewrite EE in E.
  assert (Hlen : (length kept <= length hs)%nat).
  { rewrite <- (Permutation_length Hperm), app_length. lia. }
  assert (Hkt : incl kept (hdrs (d_tbl d))).
  { intros x Hx. apply HK in Hx as [_ Hx]. rewrite <- (view_hdrs _ _ (proj1 HR)).
    destruct Hx as (e & He & <- & _). now apply in_map. }
  assert (Hsum : (sum_len kept <= max)%Z).
  { pose proof (sum_len_incl _ _ HnK Hkt). destruct HG as [_ HG]. lia. }
  destruct (reencode_terminates max kept HnK Hsum) with
    (fuel := fuel) (c := c1) (d := d1) (Out := remaining) (es0 := @nil header) (A := d_tbl d1) (B := @nil entry)
    as (c2 & b3 & El); auto.
  - intros h Hh. apply HK in Hh. apply Hp; tauto.
  - now rewrite app_nil_r.
  - intros x [].
  - simpl. lia.
  - rewrite El in E. cbn [bind] in E. unfold frame_header, pack_H in E.
    destruct (lenN (b12 ++ b3) <? 65536)%N; discriminate.
Qed.

Lemma is_path_false h : fst h <> lit ":path" -> is_path h = false.
Proof. unfold is_path. destruct (str_eqb_spec (fst h) (lit ":path")); congruence. Qed.

(** ** Size after a message *)

Lemma steps_bound max M K d es d' : steps max K d es d' -> (max <= M)%Z -> (0 <= M)%Z ->
  forall Out, Inv K Out d -> (d_size d <= M)%Z -> (d_size d' <= M)%Z.
Proof.
  induction 1; intros HM HM0 Out HI Hd; [exact Hd|].
  apply (IHsteps HM HM0 (Out ++ [h])); [now apply dstep_inv|]. apply dstep_bound; auto. apply HI.
Qed.

(** ** Hostile input: accounting and bound *)

Definition acct (M : Z) (d : decoder) : Prop :=
  d_size d = sum_len (hdrs (d_tbl d)) /\ (d_size d <= M)%Z.

Lemma ins_evict_spec max rsize elen t : forall size idx ts,
  (ts = sum_len (hdrs t))%Z ->
  ((0 <= idx)%Z -> size = (elen - rsize)%Z /\ exists old, nth_error t (Z.to_nat idx) = Some old /\ entry_len (e_hdr old) = rsize) ->
  ((idx < 0)%Z -> size = elen) ->
  let '(size', idx', t', ts') := ins_evict max rsize size idx t ts in
  (ts' = sum_len (hdrs t'))%Z /\
  ((0 <= idx')%Z -> size' = (elen - rsize)%Z /\ exists old, nth_error t' (Z.to_nat idx') = Some old /\ entry_len (e_hdr old) = rsize) /\
  ((idx' < 0)%Z -> size' = elen) /\
  (t' = [] \/ (ts' + size' <= max)%Z).
Proof.
  induction t as [|e t IH]; intros size idx ts Hts Hge Hlt; cbn [ins_evict].
  - auto.
  - destruct (ts + size >? max)%Z eqn:E.
    + apply IH.
      * rewrite Hts. simpl. lia.
      * intros Hi. destruct (Z.eqb_spec (idx - 1) (-1)); [lia|].
        destruct Hge as (H1 & old & H2 & H3); [lia|]. split; [exact H1|]. exists old.
        replace (Z.to_nat idx) with (S (Z.to_nat (idx - 1))) in H2 by lia. auto.
      * intros Hi. destruct (Z.eqb_spec (idx - 1) (-1)).
        -- destruct Hge as (H1 & _); [lia|]. lia.
        -- apply Hlt. lia.
    + split; [auto|]. split; [auto|]. split; [auto|]. right. rewrite Z.gtb_ltb in E. apply Z.ltb_ge in E. lia.
Qed.

Lemma sum_update_nth i e t old : nth_error t i = Some old ->
  sum_len (hdrs (update_nth i (fun _ => e) t)) = (sum_len (hdrs t) - entry_len (e_hdr old) + entry_len (e_hdr e))%Z.
Proof.
  revert i. induction t as [|x t IH]; intros [|i]; simpl; try discriminate; intros H.
  - injection H as ->. lia.
  - rewrite (IH _ H). lia.
Qed.

Lemma sum_py_insert i e t : sum_len (hdrs (py_insert i e t)) = (sum_len (hdrs t) + entry_len (e_hdr e))%Z.
Proof.
  unfold py_insert. set (k := Z.to_nat _). unfold hdrs. rewrite map_app, sum_len_app. cbn [map sum_len fold_right].
  rewrite <- (firstn_skipn k t) at 3. rewrite map_app, sum_len_app. fold (sum_len (map e_hdr (skipn k t))). lia.
Qed.

Lemma insert_acct max M e i d d' : (max <= M)%Z -> (0 <= M)%Z -> acct M d ->
  insert_decoded_header max e i d = Ok d' -> acct M d'.
Proof.
  intros HM H0 [Hs Hd]. unfold insert_decoded_header. rewrite nthN_nth.
  destruct (nth_error (d_tbl d) (N.to_nat i)) as [old|] eqn:En; [|discriminate].
  pose proof (ins_evict_spec max (entry_len (e_hdr old)) (entry_len (e_hdr e)) (d_tbl d)
     (entry_len (e_hdr e) - entry_len (e_hdr old)) (Z.of_N i) (d_size d)) as H.
  destruct (ins_evict _ _ _ _ _ _) as [[[size idx] t] ts].
  destruct H as (E1 & E2 & E3 & E4); auto.
  { intros _. split; [auto|]. exists old. split; [|auto]. now replace (Z.to_nat (Z.of_N i)) with (N.to_nat i) by lia. }
  { lia. }
  destruct (Z.leb_spec (ts + size) max) as [Hle|Hgt].
  - destruct (Z.leb_spec 0 idx) as [Hi|Hi]; intros H; injection H as <-; split; cbn; try lia.
    + destruct (E2 Hi) as (-> & old' & Eo & El). rewrite (sum_update_nth _ _ _ _ Eo). lia.
    + rewrite sum_py_insert. rewrite (E3 Hi). lia.
  - intros H; injection H as <-. split; cbn [d_tbl d_size]; [exact E1|]. destruct E4 as [->|]; [|lia]. simpl in E1. lia.
Qed.

Lemma append_acct max M e d : (max <= M)%Z -> (0 <= M)%Z -> acct M d -> acct M (append_decoded_header max e d).
Proof.
  intros HM H0 [Hs Hd].
  destruct (append_spec max e d Hs) as (pre & post & E & Hs' & Ht). cbn zeta in Hs'.
  split; [exact Hs'|]. rewrite Hs'. destruct Ht as [[-> Hle]|[-> _]]; [|simpl; lia].
  unfold hdrs in *. rewrite map_app, sum_len_app. simpl in *. lia.
Qed.

Lemma decode_one_acct max M d b s d' hs s' : (max <= M)%Z -> (0 <= M)%Z -> acct M d ->
  decode_one max d b s = Ok (d', hs, s') -> acct M d'.
Proof.
  intros HM H0 HA. unfold decode_one. destruct (0 <? N.land b 128)%N.
  - destruct (read_integer b 7 s) as [[i s1]|]; cbn [bind]; [|discriminate].
    destruct (nthN (d_tbl d) i); [|discriminate].
    destruct HA as [Hs Hd].
    destruct (e_ref e); intros H; injection H as <- <- <-; split; cbn; auto; now rewrite hdrs_update_nth.
  - match goal with |- bind ?m _ = _ -> _ => destruct m as [[[mode ni] s1]|] eqn:E1 end;
      cbn [bind]; [|discriminate].
    match goal with |- bind ?m _ = _ -> _ => destruct m as [[name s2]|] eqn:E2 end;
      cbn [bind]; [|discriminate].
    match goal with |- bind ?m _ = _ -> _ => destruct m as [[ri s3]|] eqn:E3 end;
      cbn [bind]; [|discriminate].
    match goal with |- bind ?m _ = _ -> _ => destruct m as [[v s4]|] eqn:E4 end;
      cbn [bind]; [|discriminate].
    destruct mode.
    + destruct (insert_decoded_header max (new_entry (name, v) true true) ri d) as [d1|] eqn:Ei; cbn [bind]; [|discriminate].
      intros H; injection H as <- <- <-. exact (insert_acct max M _ _ _ _ HM H0 HA Ei).
    + intros H; injection H as <- <- <-. exact HA.
    + intros H; injection H as <- <- <-. now apply append_acct.
Qed.

Lemma decode_loop_acct max M : (max <= M)%Z -> (0 <= M)%Z -> forall f d acc s,
  acct M d -> acct M (fst (decode_loop f max d acc s)).
Proof.
  intros HM H0. induction f as [|f IH]; intros d acc s HA; destruct s as [|b s]; cbn [decode_loop]; auto.
  destruct (decode_one max d b s) as [[[d' hs] s']|] eqn:E; [|exact HA].
  apply IH. exact (decode_one_acct max M _ _ _ _ _ _ HM H0 HA E).
Qed.

Lemma decode_headers_acct max M d f : (max <= M)%Z -> (0 <= M)%Z -> acct M d ->
  acct M (fst (decode_headers max d f)).
Proof.
  intros HM H0 [Hs Hd]. unfold decode_headers.
  set (d0 := mkDec (map (set_emit false) (d_tbl d)) (d_size d)).
  assert (HA : acct M d0).
  { split; [|exact Hd]. unfold d0; cbn [d_tbl d_size]. now rewrite (view_hdrs _ _ (set_emit_view false (d_tbl d))). }
  pose proof (decode_loop_acct max M HM H0 (length (skipn 8 f)) d0 [] (skipn 8 f) HA) as H.
  destruct (decode_loop _ _ _ _ _) as [d1 [hs|e]]; exact H.
Qed.

Lemma feed_acct max M : (max <= M)%Z -> (0 <= M)%Z -> forall fs d, acct M d -> acct M (feed max d fs).
Proof.
  intros HM H0. induction fs as [|f fs IH]; intros d HA; [exact HA|].
  apply IH. now apply decode_headers_acct.
Qed.

Lemma octets_sum t : octets t = sum_len (hdrs t).
Proof.
  unfold octets. induction t as [|e t IH]; [reflexivity|].
  change (sum_len (hdrs (e :: t))) with (entry_len (e_hdr e) + sum_len (hdrs t))%Z.
  cbn [map fold_right]. rewrite IH. unfold entry_len. lia.
Qed.

Lemma octets_headers_sum hs : octets_of_headers hs = sum_len hs.
Proof.
  unfold octets_of_headers. induction hs as [|e t IH]; [reflexivity|].
  change (sum_len (e :: t)) with (entry_len e + sum_len t)%Z.
  cbn [map fold_right]. rewrite IH. unfold entry_len. destruct e as [n v]; cbn [fst snd]. lia.
Qed.

(** ** Termination of sessions *)

Lemma session_terminates_gen fuel max msgs : forall prev c d,
  (forall m, In m msgs -> (length m < fuel)%nat) ->
  Rel c d -> good d -> (d_size d <= max)%Z ->
  (forall h, reffed (c_tbl c) h -> In h prev) ->
  no_repeated_path prev msgs ->
  encode_all fuel max c msgs <> Err Diverge.
Proof.
  induction msgs as [|m msgs IH]; intros prev c d Hfuel HR HG Hsz Hprev Hnr.
  { discriminate. }
  cbn [no_repeated_path] in Hnr. destruct Hnr as [Hp Hnr].
  assert (Ht : encode_headers fuel max m c <> Err Diverge).
  { apply (message_terminates fuel max m c d); auto; [apply Hfuel; now left|].
    intros h Hh Hr. apply is_path_false. apply Hp; auto. }
  cbn [encode_all].
  destruct (encode_headers fuel max m c) as [[c1 fr]|e] eqn:E1; cbn [bind]; [|congruence].
  destruct (message_sim _ _ _ _ _ _ _ HR HG E1) as (d1 & out & D1 & HR1 & HG1 & _ & _ & Href).
  assert (Hsz1 : (d_size d1 <= max)%Z).
  { pose proof (decode_headers_acct max max d fr (Z.le_refl _)) as HA. rewrite D1 in HA. apply HA.
    - destruct HG as [_ Hs]. pose proof (sum_len_nonneg (hdrs (d_tbl d))). lia.
    - split; [apply HG|exact Hsz]. }
  assert (Hrec : encode_all fuel max c1 msgs <> Err Diverge).
  { apply (IH m c1 d1); auto.
    - intros m' Hm'. apply Hfuel. now right.
    - intros h Hr. apply (reffed_view _ (d_tbl d1)) in Hr; [|apply HR1]. destruct Hr as (e & He & <- & Er).
      now apply Href. }
  destruct (encode_all fuel max c1 msgs) as [[? ?]|e2]; cbn [bind]; congruence.
Qed.

(** ** Divergence *)

(** Everything before the re-encoding loop. *)
Definition prefix_run (max : Z) (hs : list header) (c : encoder) : res (encoder * list header * str) :=
  let '(removed, kept, remaining, t) := compute_diff hs (c_tbl c) in
  let c := mkEnc (update_encoder_table t) (c_size c) in
  let* (c, b1) := encode_removed removed c in
  let* (c, b2) := encode_remaining max remaining c in
  Ok (c, kept, b1 ++ b2).

Lemma enc_evict_incl max size t : forall ts h, In h (hdrs (fst (enc_evict max size t ts))) -> In h (hdrs t).
Proof.
  induction t as [|e t IH]; intros ts h; simpl; [auto|].
  destruct (ts + size >? max)%Z; [|auto]. intros H. right. eapply IH; eauto.
Qed.

Lemma encode_header_path_missing max h c c' b k : encode_header max h c = Ok (c', b) ->
  is_path k = true -> find_header k (c_tbl c) = None -> find_header k (c_tbl c') = None.
Proof.
  intros E Hk. rewrite !find_header_none. intros Hm. unfold encode_header, determine_representation in E.
  destruct (find_header h (c_tbl c)) as [i|] eqn:Ef.
  - destruct (nth_error (c_tbl c) i); [|discriminate]. apply bind_ok in E as (? & _ & E).
    apply bind_ok in E as (? & _ & E). injection E as <- <-. cbn. now rewrite hdrs_update_nth.
  - destruct (str_eqb_spec (fst h) (lit ":path")) as [Hp|Hp].
    + apply bind_ok in E as (? & _ & E). injection E as <- <-. exact Hm.
    + apply bind_ok in E as (? & _ & E). injection E as <- <-. unfold append_encoded_header. cbn [e_hdr new_entry].
      pose proof (enc_evict_incl max (entry_len h) (c_tbl c) (c_size c) k) as Hi.
      destruct (enc_evict max (entry_len h) (c_tbl c) (c_size c)) as [t ts]. cbn [fst] in Hi.
      destruct (ts + entry_len h <=? max)%Z; cbn [c_tbl]; [|auto].
      unfold hdrs. rewrite map_app. intros Hin. apply in_app_or in Hin as [Hin|[Hin|[]]]; [auto|].
      cbn in Hin. subst k. unfold is_path in Hk. destruct (str_eqb_spec (fst h) (lit ":path")); congruence.
Qed.

Lemma pass_path_missing max k kept : is_path k = true -> forall c enc,
  find_header k (c_tbl c) = None ->
  exists c' b enc', reencode_pass max kept c enc = Ok (c', b, enc') /\
    find_header k (c_tbl c') = None /\ (In k kept \/ enc = true -> enc' = true).
Proof.
  intros Hk. induction kept as [|h kept IH]; intros c enc Hm; cbn [reencode_pass].
  - exists c, [], enc. split; [auto|]. split; [auto|]. simpl. tauto.
  - destruct (find_header h (c_tbl c)) as [i|] eqn:Ef.
    + destruct (IH c enc Hm) as (c' & b & enc' & E1 & E2 & E3). exists c', b, enc'.
      split; [auto|]. split; [auto|]. intros [[->|Hin]|He]; auto. congruence.
    + destruct (encode_header_total max h c) as (c1 & b1 & E). rewrite E. cbn [bind].
      destruct (IH c1 true (encode_header_path_missing _ _ _ _ _ _ E Hk Hm)) as (c' & b & enc' & -> & E2 & E3).
      cbn [bind]. exists c', (b1 ++ b), enc'. auto.
Qed.

Lemma loop_path_missing max k kept : is_path k = true -> In k kept -> forall fuel c,
  find_header k (c_tbl c) = None -> reencode_loop fuel max kept true c = Err Diverge.
Proof.
  intros Hk Hin. assert (HK : kept <> []) by (intros ->; destruct Hin).
  induction fuel as [|f IH]; intros c Hm.
  - destruct kept; [congruence|reflexivity].
  - rewrite reencode_loop_S by auto.
    destruct (pass_path_missing max k kept Hk c false Hm) as (c' & b & enc' & -> & Hm' & He). cbn [bind].
    rewrite He by auto. rewrite IH by auto. reflexivity.
Qed.

Lemma encode_diverges max hs c c1 kept b12 k :
  prefix_run max hs c = Ok (c1, kept, b12) -> is_path k = true -> In k kept ->
  find_header k (c_tbl c1) = None -> forall fuel, encode_headers fuel max hs c = Err Diverge.
Proof.
  unfold prefix_run, encode_headers. intros E Hk Hin Hm fuel.
  destruct (compute_diff hs (c_tbl c)) as [[[removed kept'] remaining] t].
  destruct (encode_removed _ _) as [[c1' b1]|]; cbn [bind] in *; [|discriminate].
  destruct (encode_remaining _ _ _) as [[c2' b2']|]; cbn [bind] in *; [|discriminate].
  injection E as -> -> <-. now rewrite (loop_path_missing max k kept Hk Hin fuel c1 Hm).
Qed.

(** ** Framing *)

Lemma encode_header_bytes max h c c' b : byte_header h -> encode_header max h c = Ok (c', b) -> is_bytes b.
Proof.
  intros [Hn Hv] E. unfold encode_header in E.
  assert (W : forall byte bs, byte = 96%N \/ byte = 64%N -> write_literal byte h (c_tbl c) = Ok bs -> is_bytes bs).
  { intros byte bs Hb. unfold write_literal.
    destruct (write_read_integer 5 byte (name_code (find_header_name h (c_tbl c)))) as (b0 & -> & Hb0 & _);
      [lia|destruct Hb as [->| ->]; reflexivity|destruct Hb as [->| ->]; reflexivity|].
    destruct (write_read_literal (fst h)) as (bn & En & Hbn & _).
    destruct (write_read_literal (snd h)) as (bv & -> & Hbv & _). rewrite En.
    destruct (find_header_name h (c_tbl c)); cbn [bind]; intros X; injection X as <-;
      repeat (apply Forall_app; split); try exact Hb0; try exact (Hbn Hn); try exact (Hbv Hv); constructor. }
  destruct (determine_representation h (c_tbl c)).
  - destruct (nth_error (c_tbl c) i); [|discriminate].
    destruct (write_toggle (N.of_nat i)) as (b0 & bs & Ew & _ & Hbs & _). rewrite Ew in E.
    destruct (e_ref e); cbn [bind] in E; injection E as <- <-; [exact (proj2 (Forall_app _ (b0 :: bs) (b0 :: bs)) (conj Hbs Hbs))|exact Hbs].
  - apply bind_ok in E as (x & E1 & E). injection E as <- <-. exact (W 96%N _ (or_introl eq_refl) E1).
  - apply bind_ok in E as (x & E1 & E). injection E as <- <-. exact (W 64%N _ (or_intror eq_refl) E1).
Qed.

Lemma encode_removed_bytes ix : forall c c' b, encode_removed ix c = Ok (c', b) -> is_bytes b.
Proof.
  induction ix as [|i ix IH]; intros c c' b E; cbn [encode_removed] in E.
  - injection E as <- <-. constructor.
  - destruct (write_toggle (N.of_nat i)) as (b0 & bs & Ew & _ & Hbs & _). rewrite Ew in E. cbn [bind] in E.
    apply bind_ok in E as ([c1 r] & E1 & E). injection E as <- <-. change (b0 :: bs ++ r) with ((b0 :: bs) ++ r).
    apply Forall_app; split; [exact Hbs|]. eapply IH; eauto.
Qed.

Lemma encode_remaining_bytes max hs : Forall byte_header hs -> forall c c' b,
  encode_remaining max hs c = Ok (c', b) -> is_bytes b.
Proof.
  induction 1 as [|h hs Hh Hhs IH]; intros c c' b E; cbn [encode_remaining] in E.
  - injection E as <- <-. constructor.
  - apply bind_ok in E as ([c1 b1] & E1 & E). apply bind_ok in E as ([c2 b2] & E2 & E). injection E as <- <-.
    apply Forall_app; split; [eapply encode_header_bytes; eauto|eapply IH; eauto].
Qed.

Lemma reencode_pass_bytes max kept : Forall byte_header kept -> forall c enc c' b enc',
  reencode_pass max kept c enc = Ok (c', b, enc') -> is_bytes b.
Proof.
  induction 1 as [|h hs Hh Hhs IH]; intros c enc c' b enc' E; cbn [reencode_pass] in E.
  - injection E as <- <- <-. constructor.
  - destruct (find_header h (c_tbl c)); [eapply IH; eauto|].
    apply bind_ok in E as ([c1 b1] & E1 & E). apply bind_ok in E as ([[c2 b2] e2] & E2 & E). injection E as <- <- <-.
    apply Forall_app; split; [eapply encode_header_bytes; eauto|eapply IH; eauto].
Qed.

Lemma reencode_loop_bytes max kept : Forall byte_header kept -> forall fuel c enc c' b,
  reencode_loop fuel max kept enc c = Ok (c', b) -> is_bytes b.
Proof.
  intros HK. induction fuel as [|f IH]; intros c enc c' b E; destruct kept as [|k K]; cbn [reencode_loop] in E;
    try (injection E as <- <-; constructor); destruct enc; try discriminate; try (injection E as <- <-; constructor).
  apply bind_ok in E as ([[c1 b1] e1] & E1 & E). apply bind_ok in E as ([c2 b2] & E2 & E). injection E as <- <-.
  apply Forall_app; split; [eapply reencode_pass_bytes; eauto|eapply IH; eauto].
Qed.

Lemma diff_loop_in hs : forall t kept rem t' kept' rem' h, diff_loop hs t kept rem = (t', kept', rem') ->
  In h (kept' ++ rem') -> In h hs \/ In h (kept ++ rem).
Proof.
  induction hs as [|x hs IH]; intros t kept rem t' kept' rem' h E Hin; cbn [diff_loop] in E.
  - injection E as <- <- <-. auto.
  - assert (Hr : diff_loop hs t kept (rem ++ [x]) = (t', kept', rem') -> In h (x :: hs) \/ In h (kept ++ rem)).
    { intros E'. destruct (IH _ _ _ _ _ _ _ E' Hin) as [H|H]; [left; now right|].
      rewrite app_assoc in H. apply in_app_or in H as [H|[->|[]]]; [auto|left; now left]. }
    destruct (find_header x t) as [i|]; [|auto].
    destruct (nth_error t i) as [e|]; [|auto]. destruct (e_ref e); [|auto]. destruct (e_emit e); [auto|].
    destruct (IH _ _ _ _ _ _ _ E Hin) as [H|H]; [left; now right|].
    rewrite <- app_assoc in H. apply in_app_or in H as [H|[->|H]]; [right; apply in_or_app; auto|left; now left|right; apply in_or_app; auto].
Qed.

Lemma encode_frame fuel max hs c c' frame : Forall byte_header hs ->
  encode_headers fuel max hs c = Ok (c', frame) ->
  exists hi lo body, frame = [hi; lo; 0; 0; 0; 0; 0; 0]%N ++ body /\
    is_bytes frame /\ (hi * 256 + lo = lenN body)%N.
Proof.
  intros HB E. unfold encode_headers, compute_diff in E.
  destruct (diff_loop hs (map (set_emit false) (c_tbl c)) [] []) as [[t1 kept] remaining] eqn:Ed.
  assert (Hin : forall h, In h (kept ++ remaining) -> byte_header h).
  { intros h Hh. destruct (diff_loop_in _ _ _ _ _ _ _ _ Ed Hh) as [H|[]]. rewrite Forall_forall in HB. auto. }
  assert (HBk : Forall byte_header kept) by (apply Forall_forall; intros; apply Hin, in_or_app; auto).
  assert (HBr : Forall byte_header remaining) by (apply Forall_forall; intros; apply Hin, in_or_app; auto).
  apply bind_ok in E as ([c1 b1] & E1 & E). apply bind_ok in E as ([c2 b2] & E2 & E).
  apply bind_ok in E as ([c3 b3] & E3 & E). apply bind_ok in E as (f & E4 & E). injection E as <- <-.
  unfold frame_header, pack_H in E4.
  destruct (N.ltb_spec (lenN (b1 ++ b2 ++ b3)) 65536) as [Hl|]; cbn [bind] in E4; [|discriminate].
  rewrite shiftr8, land255 in E4.
  assert (Ef : f = [(lenN (b1 ++ b2 ++ b3) / 256)%N; (lenN (b1 ++ b2 ++ b3) mod 256)%N] ++ [0; 0; 0; 0; 0; 0]%N) by congruence.
  subst f. clear E4. set (n := lenN (b1 ++ b2 ++ b3)) in *.
  exists (n / 256)%N, (n mod 256)%N, (b1 ++ b2 ++ b3). split; [reflexivity|]. split; [|lia].
  apply Forall_app; split.
  - repeat (constructor; [lia|]). constructor.
  - repeat (apply Forall_app; split).
    + eapply encode_removed_bytes; eauto.
    + eapply encode_remaining_bytes; [exact HBr|exact E2].
    + eapply reencode_loop_bytes; [exact HBk|exact E3].
Qed.

Lemma encode_too_large fuel max hs c : encode_headers fuel max hs c = Err StructError ->
  exists c' body, encode_body fuel max hs c = Ok (c', body) /\ (65536 <= lenN body)%N.
Proof.
  intros E. pose proof E as E0. rewrite encode_headers_body in E.
  destruct (encode_body fuel max hs c) as [[c1 b]|e] eqn:Eb; cbn [bind] in E.
  - exists c1, b. split; [reflexivity|]. unfold frame_header, pack_H in E.
    destruct (N.ltb_spec (lenN b) 65536); cbn [bind] in E; [discriminate|auto].
  - exfalso. injection E as ->.
    revert Eb. clear.
    unfold encode_body. destruct (compute_diff hs (c_tbl c)) as [[[removed kept] remaining] t].
    destruct (encode_removed_total removed (mkEnc (update_encoder_table t) (c_size c))) as (c1 & b1 & ->). cbn [bind].
    destruct (encode_remaining_total max remaining c1) as (c2 & b2 & ->). cbn [bind].
    assert (HL : forall f c enc e, reencode_loop f max kept enc c = Err e -> e = Diverge).
    { intros f. induction f as [|f IH]; intros c3 enc e; destruct kept as [|k K]; cbn [reencode_loop]; try discriminate.
      - destruct enc; congruence.
      - destruct enc; [|discriminate].
        destruct (reencode_pass_total max (k :: K) c3 false) as (c' & b & enc' & ->). cbn [bind].
        destruct (reencode_loop f max (k :: K) enc' c') as [[c4 b4]|] eqn:E; cbn [bind]; [discriminate|].
        apply IH in E. congruence. }
    destruct (reencode_loop fuel max kept true c2) as [[c3 b3]|e'] eqn:El; cbn [bind]; [discriminate|].
    apply HL in El. congruence.
Qed.
